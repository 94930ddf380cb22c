(** Props_source4.v -- C55: several sections of one source.
    All sections share the ReadSeeker of the source they were made from
    (seeksource.go:115-121). Here the sections are [secs i]; the state of the
    shared reader is passed from one to the other. *)
From Verif Require Import Base Base_proofs Source Seek Decomp CodecSpec Contract Seek_proofs Drive SeekTrace_proofs Stack_proofs Props_source.

Definition with_reader (s : sstate) (r : rstate) : sstate :=
  MkSeek r (ss_br s) (ss_ssc s) (ss_want s) (ss_start s) (ss_off s) (ss_size s).
Definition put (secs : nat -> sstate) (i : nat) (s : sstate) : nat -> sstate := fun j => if (j =? i)%nat then s else secs j.

(** Sessions: Resume on a section, then calls of Read, ReadByte, WantSave on the
    same section. The result of each: what Resume returned, and the bytes read. *)
Definition session : Type := nat * option (sckpt unit) * list cop.
Fixpoint sessions (r : rstate) (secs : nat -> sstate) (l : list session) : list (res Z * bytes) :=
  match l with
  | [] => []
  | (i, c, ops) :: l' =>
      match seek_resume (with_reader (secs i) r) c with
      | (st, Ok z) =>
          let '(st', evs, _) := trace seek_source st ops in
          (Ok z, tdata (evs : list (tev unit))) :: sessions (ss_rs st') (put secs i st') l'
      | (st, rz) => (rz, []) :: sessions (ss_rs st) (put secs i st) l'
      end
  end.

(** Section [i] is the window [win i] of the data. *)
Definition windows (data : bytes) (win : nat -> Z * Z) (secs : nat -> sstate) : Prop :=
  forall i, ss_start (secs i) = fst (win i) /\ ss_size (secs i) = snd (win i).
Definition wins_ok (data : bytes) (win : nat -> Z * Z) : Prop :=
  forall i, 0 <= fst (win i) /\ 0 <= snd (win i) /\ fst (win i) + snd (win i) < two63 /\ fst (win i) + snd (win i) <= zlen data.

(** What holds: a session reads exactly its window, from the requested offset
    on, whatever the sessions before it were; that is, if reading does not alternate between
    sections without Resume. *)
Theorem C55_sections_in_turn_partial : forall l data win secs r,
  wins_ok data win -> windows data win secs -> rs_data r = data ->
  Forall (fun s : session => forall x, snd (fst s) = Some x -> 0 <= ck_off x <= snd (win (fst (fst s)))) l ->
  Forall2 (fun (s : session) (o : res Z * bytes) =>
    let '(i, c, ops) := s in
    match fst o with
    | Ok z => z = match c with Some x => ck_off x | None => 0 end /\
        snd o = slice (slice data (Z.to_nat (fst (win i))) (Z.to_nat (snd (win i)))) (Z.to_nat z) (length (snd o))
    | Err _ => True
    | _ => False
    end) l (sessions r secs l).
Proof.
  induction l as [|[[i c] ops] l IH]; intros data win secs r Hw Hs Hr Hl; cbn [sessions]; [constructor|].
  inversion Hl as [|x y Hc Hl']; subst x y. cbn [fst snd] in Hc.
  destruct (Hs i) as [Hs1 Hs2]. destruct (Hw i) as (W1 & W2 & W3 & W4).
  assert (Ho : seek_over data (fst (win i)) (snd (win i)) (with_reader (secs i) r)) by (unfold seek_over; cbn; splits; auto).
  assert (Hput : forall st, ss_start st = fst (win i) -> ss_size st = snd (win i) -> windows data win (put secs i st)).
  { intros st H1 H2 j. unfold put. destruct (j =? i)%nat eqn:E; [apply Nat.eqb_eq in E; subst j; auto|apply Hs]. }
  destruct (seek_resume (with_reader (secs i) r) c) as [st rz] eqn:Hres.
  destruct rz as [z|e| |].
  - destruct (seek_resumed _ _ _ _ _ _ _ Ho Hc Hres) as (Hz & Hzr & m & Hat).
    destruct (trace seek_source st ops) as [[st' evs] bad] eqn:Htr.
    destruct (seek_trace_full data (fst (win i)) (snd (win i)) false W2 ops st _ m st' evs bad Hat Htr) as (_ & T1 & (m' & T2) & _).
    pose proof (seek_over_len _ _ _ _ Ho) as Hlen.
    destruct (tr_ok_data _ _ _ _ _ _ T1 ltac:(unfold zlen in Hlen; lia)) as [D1 D2].
    destruct T2 as ((S1 & S2 & S3 & _) & _). constructor.
    + cbn [fst snd]. split; [exact Hz|]. unfold seek_data in D1. exact D1.
    + apply IH with (data := data) (win := win); auto.
  - constructor; [exact Logic.I|].
    assert (Hst : ss_start st = fst (win i) /\ ss_size st = snd (win i) /\ rs_data (ss_rs st) = data).
    { revert Hres. unfold seek_resume, rs_seek. cbn [with_reader ss_rs ss_start ss_size].
      destruct c as [x|]; [destruct (ck_off x <? 0); [intros [= <- _]; cbn; auto|]|];
        destruct (rs_sorc r) as [|[|] t]; repeat match goal with |- context [if ?b then _ else _] => destruct b end;
        intros [= <- _]; cbn; auto. }
    destruct Hst as (S1 & S2 & S3). apply IH with (data := data) (win := win); auto.
  - exfalso. revert Hres. unfold seek_resume. destruct c as [x|]; [destruct (ck_off x <? 0); [discriminate|]|];
      destruct (rs_seek _ _) as [rs' [e|]]; discriminate.
  - exfalso. revert Hres. unfold seek_resume. destruct c as [x|]; [destruct (ck_off x <? 0); [discriminate|]|];
      destruct (rs_seek _ _) as [rs' [e|]]; discriminate.
Qed.

(** The two halves of "abcdefgh", read in turn. *)
Definition ex_win (i : nat) : Z * Z := if (i =? 0)%nat then (0, 4) else (4, 4).
Definition ex_secs (i : nat) : sstate :=
  match seek_section (seek_from_bytes (s2b "abcdefgh")) (fst (ex_win i)) (snd (ex_win i)) with Ok s => s | _ => seek_from_bytes [] end.
Definition ex_r : rstate := MkRs (s2b "abcdefgh") 0 [] [].
Example C55_example :
  wins_ok (s2b "abcdefgh") ex_win /\ windows (s2b "abcdefgh") ex_win ex_secs /\
  sessions ex_r ex_secs [(0, None, [CRead 2]); (1, None, [CRead 3]); (0, Some (MkCk 2 None), [CReadByte; CRead 5])]%nat
    = [(Ok 0, s2b "ab"); (Ok 0, s2b "efg"); (Ok 2, s2b "cd")].
Proof.
  split; [|split].
  - intros i. unfold ex_win. destruct (i =? 0)%nat; vm_compute; splits; first [reflexivity|discriminate].
  - intros i. unfold ex_secs, ex_win. destruct (i =? 0)%nat; vm_compute; auto.
  - vm_compute. reflexivity.
Qed.

(** C55. False of the code: both halves are resumed, then the first one is
    read: it delivers the bytes of the second. *)
Theorem C55_interleaved_sections_refuted :
  exists s0 s1 st0 st1 st2 evs,
    seek_section (seek_from_bytes (s2b "abcdefgh")) 0 4 = Ok s0 /\ seek_section (seek_from_bytes (s2b "abcdefgh")) 4 4 = Ok s1 /\
    seek_resume (with_reader s0 ex_r) None = (st0, Ok 0) /\ seek_resume (with_reader s1 (ss_rs st0)) None = (st1, Ok 0) /\
    trace seek_source (with_reader st0 (ss_rs st1)) [CRead 4] = (st2, evs, false) /\
    tdata (evs : list (tev unit)) = s2b "efgh" /\ slice (s2b "abcdefgh") 0 4 = s2b "abcd".
Proof.
  do 6 eexists. split; [vm_compute; reflexivity|]. split; [vm_compute; reflexivity|]. split; [vm_compute; reflexivity|].
  split; [vm_compute; reflexivity|]. split; [vm_compute; reflexivity|]. split; vm_compute; reflexivity.
Qed.
