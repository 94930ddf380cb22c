(** Props_zero.v -- C83: checkpoints at offset 0 (source.go:10-24, "Offset ...
    Should be non-zero, as the checkpoint for offset 0 is simply nil"). *)
From Verif Require Import Base Base_proofs Source Seek Decomp CodecSpec Counting Contract Seek_proofs Decomp_proofs
  Drive Stack_proofs SeekTrace_proofs SourceMisc_proofs ExCodec Props_source Props_source2 Props_source3.

(** Refuted as documented: a seek source asked to save before the first Read
    emits a checkpoint with Offset 0. *)
Definition zr_st0 : s_st (stk_source KSeek) := s_setssc (stk_source KSeek) (stk_new KSeek (ex_rs (s2b "hello")) 0 5).
Definition zr_st1 := fst (s_resume (stk_source KSeek) zr_st0 None).
Definition zr_run := trace (stk_source KSeek) zr_st1 [CWant; CRead 3; CWant; CRead 9].
Lemma zr_life : life false (s2b "hello") 0 5 KSeek true (ex_rs (s2b "hello")) zr_st1 true.
Proof.
  eapply LifeResume with (c := None) (z := 0); [apply LifeNew; [reflexivity|discriminate]|discriminate|].
  apply pair_snd. vm_compute. reflexivity.
Qed.
Theorem C83_offset_zero_refuted :
  life false (s2b "hello") 0 5 KSeek true (ex_rs (s2b "hello")) zr_st1 true /\
  map (fun ev => map ck_off (te_cks ev)) (snd (fst zr_run)) = [[]; [0]; []; [3]] /\
  exists c, emitted false (s2b "hello") 0 5 KSeek true c /\ ck_off c = 0.
Proof.
  split; [exact zr_life|]. split; [vm_compute; reflexivity|].
  set (ev := nth 1 (snd (fst zr_run)) (MkTev CWant [] None [])).
  destruct (map_single ck_off (te_cks ev) 0) as (c & Hc & Hf); [vm_compute; reflexivity|].
  exists c. split; [|exact Hf].
  refine (emitted_trace false (s2b "hello") 0 5 KSeek true (ex_rs (s2b "hello")) zr_st1 [CWant; CRead 3; CWant; CRead 9] ev c zr_life _ _ Hc).
  - repeat (apply Forall_cons; [vm_compute; first [reflexivity | exact Logic.I | lia]|]). apply Forall_nil.
  - vm_compute. right. left. reflexivity.
Qed.

(** It holds once a byte has been delivered: in a session of any source, on any
    source object and after Resume(nil) or Resume with any emitted checkpoint, a
    checkpoint emitted after the stream has moved past its first byte has a
    non-zero Offset, and one with Offset 0 is emitted only before. *)
Theorem C83_only_before_the_first_byte_partial : forall pol data start size k D tm b byt p late rs st0 bb c0 st z ops st' pre ev post bad c,
  stk_den pol data start size k D tm b byt p late ->
  life pol data start size k byt rs st0 bb -> (forall x, c0 = Some x -> emitted pol data start size k byt x) ->
  s_resume (stk_source k) st0 c0 = (st, Ok z) ->
  Forall (op_ok byt) ops -> trace (stk_source k) st ops = (st', pre ++ ev :: post, bad) -> In c (te_cks ev) ->
  (ck_off c = 0 -> z = 0 /\ tdata pre = []) /\ (0 < z \/ tdata pre <> [] -> 0 < ck_off c).
Proof.
  intros pol data start size k D tm b byt p late rs st0 bb c0 st z ops st' pre ev post bad c Hden Hl Hc Hr Hops Ht Hi.
  pose proof (stack_session pol data start size k D tm b byt p late Hden c0 rs st0 bb st (Ok z) Hl Hc Hr) as (_ & Hzr & Hs & _).
  destruct (Hs ops st' _ bad Hops Ht) as [_ Htr].
  apply tr_ok_at in Htr. destruct Htr as (_ & _ & _ & _ & _ & H & _). destruct (H c Hi) as [[H1 _] _].
  split.
  - intros H0. split; [lia|]. destruct (tdata pre); [reflexivity|cbn [length] in *; lia].
  - intros [H0|H0]; [lia|]. destruct (tdata pre); [congruence|cbn [length] in *; lia].
Qed.

(** And a checkpoint with Offset 0 means what nil means: Resume returns 0, and
    what is read afterwards is the stream from its first byte on, whole if one
    keeps reading. *)
Theorem C83_offset_zero_is_nil_partial : forall pol data start size k D tm b byt p late rs st0 bb c oc st r,
  stk_den pol data start size k D tm b byt p late ->
  emitted pol data start size k byt c -> ck_off c = 0 -> oc = Some c \/ oc = None ->
  life pol data start size k byt rs st0 bb -> rs_good rs -> D <> [] ->
  s_resume (stk_source k) st0 oc = (st, r) ->
  r = Ok 0 /\
  (forall ops st' evs bad, Forall (op_ok byt) ops -> trace (stk_source k) st ops = (st', evs, bad) ->
     bad = false /\ tdata evs = firstn (length (tdata evs)) D /\ tr_ok D tm False late 0 evs) /\
  exists n0, forall n sz st' evs bad, (n0 <= n)%nat -> (0 < sz)%nat ->
    trace (stk_source k) st (repeat (CRead sz) n) = (st', evs, bad) ->
    tdata evs = D /\ exists ev, In ev evs /\ te_err ev = Some tm.
Proof.
  intros pol data start size k D tm b byt p late rs st0 bb c oc st r Hden He H0 Hoc Hl Hg Hne Hr.
  assert (Hc : forall x, oc = Some x -> emitted pol data start size k byt x) by (intros x Hx; destruct Hoc; congruence).
  pose proof (stack_session pol data start size k D tm b byt p late Hden oc rs st0 bb st r Hl Hc Hr) as H.
  destruct r as [z|e| |]; [|destruct H as [H|[H _]]; contradiction|destruct H|destruct H].
  destruct H as (Hz & _ & H1 & H2).
  assert (z = 0) as -> by (destruct Hoc; subst oc; congruence).
  split; [reflexivity|]. split.
  - intros ops st' evs bad Ho Ht. destruct (H1 ops st' evs bad Ho Ht) as [Hb Htr]. split; [exact Hb|].
    change (Z.to_nat 0) with 0%nat in Htr.
    destruct (tr_ok_data _ _ _ _ _ _ Htr ltac:(lia)) as [D1 D2].
    split; [exact D1|]. eapply tr_ok_weaken; [|exact Htr]. tauto.
  - exact (H2 Hg).
Qed.

(** Non-vacuity: the checkpoint of the refutation is one of those. *)
Example C83_example :
  stk_den false (s2b "hello") 0 5 KSeek (s2b "hello") EEof 5 true false false /\ rs_good (ex_rs (s2b "hello")) /\
  map (fun ev => map (fun c => (ck_off c, snd (s_resume (stk_source KSeek) zr_st0 (Some c)),
        tdata (snd (fst (trace (stk_source KSeek) (fst (s_resume (stk_source KSeek) zr_st0 (Some c))) [CRead 9; CRead 9]))))) (te_cks ev))
    (snd (fst zr_run)) = [[]; [(0, Ok 0, s2b "hello")]; []; [(3, Ok 3, s2b "lo")]].
Proof.
  split; [|split].
  - exact (DenSeek false (s2b "hello") 0 5 ltac:(lia) ltac:(lia) ltac:(reflexivity)).
  - split; vm_compute; intuition congruence.
  - vm_compute. reflexivity.
Qed.
