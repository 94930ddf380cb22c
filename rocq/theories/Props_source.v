(** Props_source.v -- the properties of seek sources (C01-C03).
    Vocabulary: [trace] (Drive.v) performs a list of Read / ReadByte / WantSave
    calls and records what each returned and which checkpoints it emitted;
    [tr_ok D tm fault late pos evs] (Drive.v) says that a history is right for a
    stream made of the bytes [D] and then the error [tm]. *)
From Coq Require Import Sorted Lqa.
From Verif Require Import Base Base_proofs Source Seek Decomp CodecSpec Counting Contract Seek_proofs Decomp_proofs
  Drive Stack_proofs SeekTrace_proofs Counting_proofs SourceMisc_proofs ExCodec.

(** [s0] is any seek source over the section [start, start+size) of [data]
    (start = 0 for NewWithSize/FromBytes/FromFile), whatever was called on it
    before. *)
Definition seek_over (data : bytes) (start size : Z) (s0 : sstate) : Prop :=
  ss_start s0 = start /\ ss_size s0 = size /\ rs_data (ss_rs s0) = data /\
  0 <= start /\ 0 <= size /\ start + size < two63 /\ start + size <= zlen data.

Lemma seek_over_static data start size s0 : seek_over data start size s0 -> seek_static data start size false s0.
Proof. intros (H1 & H2 & H3 & _). split; [exact H1|]. split; [exact H2|]. split; [exact H3|]. discriminate. Qed.

Lemma seek_over_len data start size s0 : seek_over data start size s0 -> zlen (seek_data data start size) = size.
Proof.
  intros (_ & _ & _ & H1 & H2 & H3 & H4). unfold seek_data, zlen in *. rewrite slice_length; lia.
Qed.

Lemma seek_resumed data start size s0 c st z : seek_over data start size s0 ->
  (forall x, c = Some x -> 0 <= ck_off x <= size) -> seek_resume s0 c = (st, Ok z) ->
  z = match c with Some x => ck_off x | None => 0 end /\ 0 <= z <= size /\
  exists m, seek_at data start size false st (Z.to_nat z) m.
Proof.
  intros Ho Hc Hr. pose proof (seek_over_static _ _ _ _ Ho) as Hs. pose proof (seek_over_len _ _ _ _ Ho) as Hl.
  assert (Hck : forall x, c = Some x -> seek_ck data start size x) by (intros x Hx; unfold seek_ck; rewrite Hl; auto).
  pose proof Ho as (_ & _ & _ & H1 & H2 & H3 & H4).
  pose proof (seek_resume_ok data start size false H1 H2 H3 s0 c st (Ok z) Hs Hck Hr) as (Hz & Hat & _).
  split; [exact Hz|]. split; [destruct c as [x|]; subst z; [apply Hc; reflexivity|lia]|]. eauto.
Qed.

(** Resume works when the file can be read. *)
Lemma seek_resume_good s0 c : rs_good (ss_rs s0) ->
  let off := match c with Some x => ck_off x | None => 0 end in
  0 <= off /\ 0 <= ss_start s0 /\ ss_start s0 + off < two63 ->
  exists st, seek_resume s0 c = (st, Ok off).
Proof.
  intros [Hg1 Hg2] off (Ho & Hs & Hlt). unfold seek_resume, rs_seek.
  assert (Hf : match rs_sorc (ss_rs s0) with b :: _ => b | [] => false end = false).
  { destruct (rs_sorc (ss_rs s0)) as [|[|] t]; [reflexivity| |reflexivity]. exfalso. apply Hg2. left. reflexivity. }
  assert (Hw : forall x, 0 <= x -> ss_start s0 + x < two63 -> (wrap64 (ss_start s0 + x) <? 0) = false).
  { intros x Hx1 Hx2. rewrite wrap64_id; [lia|]. unfold is_int64, two63 in *. lia. }
  subst off. destruct c as [x|].
  - replace (ck_off x <? 0) with false by lia. destruct (rs_sorc (ss_rs s0)) as [|[|] t]; try discriminate Hf;
      cbn; rewrite Hw by lia; eexists; reflexivity.
  - destruct (rs_sorc (ss_rs s0)) as [|[|] t]; try discriminate Hf; cbn; rewrite Hw by lia; eexists; reflexivity.
Qed.

(** ** C01 *)
Theorem C01_seek_delivers_in_order : forall data start size s0 st ops st' evs bad,
  seek_over data start size s0 -> seek_resume s0 None = (st, Ok 0) ->
  trace seek_source st ops = (st', evs, bad) ->
  bad = false /\ map te_op evs = ops /\
  tdata evs = firstn (length (tdata evs)) (slice data (Z.to_nat start) (Z.to_nat size)) /\
  seek_tell st' = zlen (tdata evs) /\ zlen (tdata evs) <= size /\
  (forall pre ev post, evs = pre ++ ev :: post ->
     te_data ev = slice data (Z.to_nat start + length (tdata pre)) (length (te_data ev)) /\
     (te_err ev = Some EEof -> zlen (tdata pre) + zlen (te_data ev) = size) /\
     (forall n, te_op ev = CRead (S n) -> te_err ev = None -> te_data ev <> []) /\
     (te_op ev = CReadByte -> te_err ev = None -> length (te_data ev) = 1%nat) /\
     (forall e, te_err ev = Some e -> e = EEof \/ e = EIO)).
Proof.
  intros data start size s0 st ops st' evs bad Ho Hr Ht.
  destruct (seek_resumed _ _ _ _ None _ _ Ho ltac:(discriminate) Hr) as (_ & _ & m & Hat).
  pose proof (seek_over_len _ _ _ _ Ho) as Hl. pose proof Ho as (_ & _ & _ & H1 & H2 & H3 & H4).
  destruct (seek_trace_full data start size false H2 ops st _ m st' evs bad Hat Ht)
    as (-> & T1 & (m' & T2) & T3 & _ & _ & _ & _ & T8 & T9 & _).
  change (Z.to_nat 0) with 0%nat in *.
  destruct (tr_ok_data _ _ _ _ _ _ T1 ltac:(lia)) as [D1 D2].
  split; [reflexivity|]. split; [exact T3|]. split; [rewrite firstn_slice; exact D1|].
  split; [destruct T2 as (_ & T2 & _); exact T2|]. split; [rewrite <- Hl; unfold zlen; lia|].
  intros pre ev post He. rewrite He in T1. apply tr_ok_at in T1. cbn [tr_ok] in T1.
  destruct T1 as (E1 & E2 & E3 & E4 & E5 & E6 & E7). rewrite Nat.add_0_l in *.
  assert (Hin : In ev evs) by (rewrite He; apply in_or_app; right; left; reflexivity).
  split.
  { rewrite E1 at 1. unfold seek_data. apply slice_slice. unfold zlen in Hl. unfold seek_data in *. lia. }
  split.
  { intros He2. destruct (E5 _ He2) as [[_ Hx]|(_ & Hx & _)]; [|congruence]. rewrite <- Hl. unfold zlen. lia. }
  split; [intros n Hn1 Hn2; eapply T9; eassumption|]. split; [exact E4|].
  intros e He2. destruct (T8 ev Hin) as [Hx|[Hx|Hx]]; rewrite Hx in He2; inversion He2; auto.
Qed.

(** ... and it does deliver all of them, if the file can be read. *)
Theorem C01_seek_reaches_the_end : forall data start size s0,
  seek_over data start size s0 -> rs_good (ss_rs s0) ->
  exists st, seek_resume s0 None = (st, Ok 0) /\
  forall n sz st' evs bad, (Z.to_nat size < n)%nat -> (0 < sz)%nat ->
    trace seek_source st (repeat (CRead sz) n) = (st', evs, bad) ->
    tdata evs = slice data (Z.to_nat start) (Z.to_nat size) /\ exists ev, In ev evs /\ te_err ev = Some EEof.
Proof.
  intros data start size s0 Ho [Hg1 Hg2].
  pose proof (seek_over_static _ _ _ _ Ho) as Hs. pose proof (seek_over_len _ _ _ _ Ho) as Hl.
  pose proof Ho as (_ & _ & _ & H1 & H2 & H3 & H4).
  destruct (seek_resume s0 None) as [st r] eqn:Hr.
  pose proof (seek_resume_ok data start size false H1 H2 H3 s0 None st r Hs ltac:(discriminate) Hr) as Hres.
  assert (Hgood : forall b, In b (rs_sorc (ss_rs s0)) -> b = false) by (intros [|] Hb; [tauto|reflexivity]).
  assert (Hbr : forall s c s1 z, seek_resume s c = (s1, Ok z) -> forall b, ss_br s1 = Some b -> b_err b = None).
  { intros s c s1 z. unfold seek_resume. destruct c as [x|]; [destruct (ck_off x <? 0); [discriminate|]|];
      destruct (rs_seek _ _) as [rs' [e|]]; intros [= <- _]; cbn; intros b [= <-]; reflexivity. }
  assert (Hse : forall off, 0 <= off -> exists rs', rs_seek (ss_rs s0) off = (rs', None) /\ rs_nofail rs').
  { intros off Hof. unfold rs_seek. destruct (rs_sorc (ss_rs s0)) as [|b t] eqn:Hso; cbn.
    - replace (off <? 0) with false by lia. eexists. split; [reflexivity|]. split; cbn; [intros ? []|exact Hg1].
    - rewrite (Hgood b (or_introl eq_refl)). replace (off <? 0) with false by lia. eexists. split; [reflexivity|].
      split; cbn; [intros b0 Hb0; apply Hgood; right; exact Hb0|exact Hg1]. }
  destruct (Hse (wrap64 (ss_start s0 + 0))) as (rs' & Hrs & Hnf).
  { destruct Hs as (-> & _). rewrite wrap64_id; [lia|]. unfold is_int64, two63 in *. lia. }
  assert (Hrok : r = Ok 0 /\ ss_rs st = rs').
  { unfold seek_resume in Hr. rewrite Hrs in Hr. injection Hr as <- <-. auto. }
  destruct Hrok as [-> Hrst]. destruct Hres as (_ & Hat & _ & _). change (Z.to_nat 0) with 0%nat in Hat.
  exists st. split; [reflexivity|]. intros n sz st' evs bad Hn Hsz Ht.
  assert (Hcl : seek_clean st).
  { split; [rewrite Hrst; exact Hnf|]. intros b Hb. rewrite (Hbr _ _ _ _ Hr b Hb). discriminate. }
  pose proof (trace_end (seek_laws data start size false H1 H2 H3) n st 0 (length (seek_data data start size) - 0) st' evs bad sz Hsz Hat Hcl) as HE.
  apply HE in Ht; [|unfold zlen in Hl; lia]. cbn [skipn] in Ht. exact Ht.
Qed.

(** Non-vacuity: a source over "hello world", read in pieces. *)
Example C01_example :
  seek_over (s2b "hello world") 0 11 (seek_from_bytes (s2b "hello world")) /\
  exists st, seek_resume (seek_from_bytes (s2b "hello world")) None = (st, Ok 0) /\
  map te_data (snd (fst (trace seek_source st [CRead 3; CReadByte; CWant; CRead 4; CRead 9; CRead 1]))) =
    [s2b "hel"; s2b "l"; []; s2b "o wo"; s2b "rld"; []].
Proof.
  split; [repeat split; try reflexivity; try (unfold two63; cbn; lia); cbn; lia|].
  eexists. split; [reflexivity|]. vm_compute. reflexivity.
Qed.

Lemma expect_cks_in size (c : sckpt unit) (ev : tev unit) post : In c (te_cks ev) ->
  forall pre0 pos w, map te_cks (pre0 ++ ev :: post) = expect_cks (Z.to_nat size) pos w (pre0 ++ ev :: post) ->
     c = MkCk (Z.of_nat (pos + length (tdata pre0))) None /\ (pos + length (tdata pre0) < Z.to_nat size)%nat.
Proof.
  intros Hc. induction pre0 as [|e0 pre0 IH]; intros pos w.
  - cbn [app map expect_cks]. change (@tdata unit []) with (@nil byte). cbn [length]. rewrite Nat.add_0_r.
    assert (Hx : forall rest evs0 l, te_cks ev :: rest = l :: evs0 -> (forall x, In x l -> x = MkCk (Z.of_nat pos) None /\ (pos < Z.to_nat size)%nat) ->
       c = MkCk (Z.of_nat pos) None /\ (pos < Z.to_nat size)%nat).
    { intros rest evs0 l Heq Hl. injection Heq as Heq _. rewrite Heq in Hc. exact (Hl c Hc). }
    destruct (te_op ev) as [[|n]| |].
    + intros Heq. eapply Hx; [exact Heq|]. intros x [].
    + destruct (pos <? Z.to_nat size)%nat eqn:Hlt; intros Heq; (eapply Hx; [exact Heq|]); intros x Hi; [|destruct Hi].
      destruct w; [|destruct Hi]. destruct Hi as [<- | []]. split; [reflexivity|lia].
    + destruct (pos <? Z.to_nat size)%nat eqn:Hlt; intros Heq; (eapply Hx; [exact Heq|]); intros x Hi; [|destruct Hi].
      destruct w; [|destruct Hi]. destruct Hi as [<- | []]. split; [reflexivity|lia].
    + intros Heq. eapply Hx; [exact Heq|]. intros x [].
  - cbn [app map expect_cks]. rewrite tdata_cons, app_length, Nat.add_assoc.
    destruct (te_op e0) as [[|n]| |]; try (intros Heq; injection Heq as _ Heq; exact (IH _ _ Heq));
      destruct (pos <? Z.to_nat size)%nat; intros Heq; injection Heq as _ Heq; exact (IH _ _ Heq).
Qed.

(** ** C02 *)
Theorem C02_seek_checkpoints_resume : forall data start size s0 (c0 : option (sckpt unit)) st z ops st'
    (evs : list (tev unit)) bad pre ev post (c : sckpt unit),
  seek_over data start size s0 -> (forall x, c0 = Some x -> 0 <= ck_off x <= size) ->
  seek_resume s0 c0 = (st, Ok z) -> trace seek_source st ops = (st', evs, bad) ->
  evs = pre ++ ev :: post -> In c (te_cks ev) ->
  (* it carries the number of bytes delivered before the call *)
  ck_off c = z + zlen (tdata pre) /\ ck_data c = None /\ 0 <= ck_off c < size /\
  (* and resuming any source over the same section from it works *)
  forall s1 st1 r1, seek_over data start size s1 -> seek_resume s1 (Some c) = (st1, r1) ->
    (rs_good (ss_rs s1) -> r1 = Ok (ck_off c)) /\
    (forall z1, r1 = Ok z1 -> z1 = ck_off c /\ seek_tell st1 = ck_off c /\
       forall ops1 st2 (evs1 : list (tev unit)) bad1, trace seek_source st1 ops1 = (st2, evs1, bad1) ->
         bad1 = false /\ map te_op evs1 = ops1 /\
         tdata evs1 = slice data (Z.to_nat start + Z.to_nat (ck_off c)) (length (tdata evs1)) /\
         seek_tell st2 = ck_off c + zlen (tdata evs1) /\ seek_tell st2 <= size).
Proof.
  intros data start size s0 c0 st z ops st' evs bad pre ev post c Ho Hc0 Hr Ht He Hc.
  destruct (seek_resumed _ _ _ _ _ _ _ Ho Hc0 Hr) as (_ & Hz & m & Hat).
  pose proof (seek_over_len _ _ _ _ Ho) as Hl. pose proof Ho as (_ & _ & _ & H1 & H2 & H3 & H4).
  destruct (seek_trace_full data start size false H2 ops st _ m st' evs bad Hat Ht)
    as (-> & T1 & _ & _ & _ & T5 & T6 & _).
  assert (Hssc : ss_ssc st = true).
  { destruct (ss_ssc st) eqn:Hs; [reflexivity|]. 
    assert (E : te_cks ev = []) by (apply (T6 eq_refl ev); rewrite He; apply in_or_app; right; left; reflexivity).
    exfalso. revert Hc. change (s_ck seek_source) with unit in *. rewrite E. intros []. }
  specialize (T5 Hssc). rewrite He in T5. destruct (expect_cks_in size c ev post Hc pre _ _ T5) as [Hcc Hlt].
  assert (Hoff : ck_off c = z + zlen (tdata pre)) by (rewrite Hcc; cbn; unfold zlen; lia).
  split; [exact Hoff|]. split; [rewrite Hcc; reflexivity|].
  assert (Hrange : 0 <= ck_off c < size) by (rewrite Hcc; cbn [ck_off]; lia).
  split; [exact Hrange|].
  intros s1 st1 r1 Ho1 Hr1.
  assert (Hck1 : forall x, Some c = Some x -> 0 <= ck_off x <= size) by (intros x [= <-]; lia).
  split.
  - intros Hg. pose proof Ho1 as (Hst1 & _).
    destruct (seek_resume_good s1 (Some c) Hg) as (st9 & E9); [|rewrite E9 in Hr1; injection Hr1 as _ <-; reflexivity].
    change (s_ck seek_source) with unit in *. rewrite Hst1. splits; lia.
  - intros z1 ->. destruct (seek_resumed _ _ _ _ _ _ _ Ho1 Hck1 Hr1) as (-> & _ & m1 & Hat1).
    split; [reflexivity|]. split; [destruct Hat1 as (_ & Hx & _); unfold seek_tell; lia|].
    intros ops1 st2 evs1 bad1 Ht1.
    destruct (seek_trace_full data start size false H2 ops1 st1 _ m1 st2 evs1 bad1 Hat1 Ht1) as (-> & U1 & (m2 & U2) & U3 & _).
    change (s_ck seek_source) with unit in *.
    destruct (tr_ok_data _ _ _ _ _ _ U1 ltac:(unfold zlen in Hl; lia)) as [D1 D2].
    split; [reflexivity|]. split; [exact U3|]. split.
    { rewrite D1 at 1. unfold seek_data. apply slice_slice. unfold zlen in Hl. unfold seek_data in *. lia. }
    destruct U2 as (_ & U2 & U4 & _). unfold seek_tell. rewrite U2. unfold zlen in *. lia.
Qed.

(** Non-vacuity: a checkpoint is emitted and used on a fresh source. *)
Example C02_example :
  let s0 := seek_setssc (seek_from_bytes (s2b "hello world")) in
  exists st, seek_resume s0 None = (st, Ok 0) /\
  let evs := snd (fst (trace seek_source st [CRead 3; CWant; CRead 4; CRead 2])) in
  map te_cks evs = [[]; []; [MkCk 3 None]; []] /\
  exists st1, seek_resume (seek_from_bytes (s2b "hello world")) (Some (MkCk 3 None)) = (st1, Ok 3) /\
  tdata (snd (fst (trace seek_source st1 [CRead 4]))) = s2b "lo w".
Proof.
  eexists. split; [reflexivity|]. split; [vm_compute; reflexivity|]. eexists. split; [reflexivity|]. vm_compute. reflexivity.
Qed.

(** ** C03 *)
Theorem C03_wantsave_one_checkpoint : forall data start size s0 (c0 : option (sckpt unit)) st z ops st' (evs : list (tev unit)) bad,
  seek_over data start size s0 -> (forall x, c0 = Some x -> 0 <= ck_off x <= size) ->
  seek_resume s0 c0 = (st, Ok z) -> trace seek_source st ops = (st', evs, bad) ->
  (ss_ssc s0 = true -> map te_cks evs = expect_cks (Z.to_nat size) (Z.to_nat z) (ss_want s0) evs) /\
  (ss_ssc s0 = false -> forall ev, In ev evs -> te_cks ev = []) /\
  (ss_want s0 = false -> ~ In CWant ops -> forall ev, In ev evs -> te_cks ev = []).
Proof.
  intros data start size s0 c0 st z ops st' evs bad Ho Hc0 Hr Ht.
  destruct (seek_resumed _ _ _ _ _ _ _ Ho Hc0 Hr) as (_ & Hz & m & Hat).
  pose proof Ho as (_ & _ & _ & H1 & H2 & H3 & H4).
  assert (Hsw : ss_ssc st = ss_ssc s0 /\ ss_want st = ss_want s0).
  { clear -Hr. unfold seek_resume in Hr. destruct c0 as [x|]; [destruct (ck_off x <? 0); [discriminate|]|];
      destruct (rs_seek _ _) as [rs' [e|]]; try discriminate; injection Hr as <- _; auto. }
  destruct Hsw as [Hs Hw].
  destruct (seek_trace_full data start size false H2 ops st _ m st' evs bad Hat Ht)
    as (_ & _ & _ & T3 & _ & T5 & T6 & _).
  split; [intros Hx; rewrite <- Hw; apply T5; congruence|]. split; [intros Hx; apply T6; congruence|].
  intros Hx Hn ev Hi. destruct (ss_ssc st) eqn:Hssc; [|exact (T6 eq_refl ev Hi)].
  specialize (T5 eq_refl). rewrite Hw, Hx in T5. rewrite <- T3 in Hn.
  assert (Hall : forall l pos, ~ In CWant (map te_op l) -> forall x, In x (expect_cks (Z.to_nat size) pos false l) -> x = []).
  { clear. induction l as [|e0 l IH]; intros pos Hn x; cbn [expect_cks]; [intros []|].
    cbn [map In] in Hn. destruct (te_op e0) as [[|n]| |]; try tauto;
      try (destruct (pos <? Z.to_nat size)%nat); (intros [<- | Hi]; [reflexivity|]); eapply IH; try exact Hi; tauto. }
  change (s_ck seek_source) with unit in *. apply (Hall evs (Z.to_nat z) Hn (te_cks ev)). rewrite <- T5. apply in_map. exact Hi.
Qed.

(** Non-vacuity: three WantSave calls, one checkpoint; none at the end. *)
Example C03_example :
  let s0 := seek_setssc (seek_from_bytes (s2b "hello")) in
  exists st, seek_resume s0 None = (st, Ok 0) /\
  map te_cks (snd (fst (trace seek_source st [CWant; CWant; CRead 0; CRead 2; CRead 2; CWant; CReadByte; CWant; CRead 3])))
    = [[]; []; []; [MkCk 0 None]; []; []; [MkCk 4 None]; []; []].
Proof. eexists. split; [reflexivity|]. vm_compute. reflexivity. Qed.
