(** Props_source2.v -- C04-C11: sections, bad checkpoints, uninitialised
    sources, progress, counting sources, DiscardByRead. *)
From Coq Require Import Sorted Lqa.
From Verif Require Import Base Base_proofs Source Seek Decomp CodecSpec Counting Contract Seek_proofs Decomp_proofs
  Drive Stack_proofs SeekTrace_proofs Counting_proofs SourceMisc_proofs ExCodec Props_source.

(** ** C04: sections *)

(** Sections of sections: each (start, size) relative to the one before. *)
Fixpoint nest (s : sstate) (l : list (Z * Z)) : res sstate :=
  match l with
  | [] => Ok s
  | (a, b) :: l' => match seek_section s a b with Ok s1 => nest s1 l' | r => r end
  end.
(** The bytes they stand for, and whether they fit, by cutting the data. *)
Fixpoint nest_bytes (D : bytes) (l : list (Z * Z)) : bytes :=
  match l with [] => D | (a, b) :: l' => nest_bytes (slice D (Z.to_nat a) (Z.to_nat b)) l' end.
Fixpoint nest_fits (sz : Z) (l : list (Z * Z)) : Prop :=
  match l with [] => True | (a, b) :: l' => 0 <= a /\ 0 <= b /\ a + b <= sz /\ nest_fits b l' end.

Lemma nest_over : forall l data start size s0, seek_over data start size s0 ->
  (forall a b, In (a, b) l -> a + b < two63) ->
  (nest_fits size l -> exists s1, nest s0 l = Ok s1) /\
  (forall s1, nest s0 l = Ok s1 -> nest_fits size l /\ exists st1 sz1, seek_over data st1 sz1 s1 /\
     slice data (Z.to_nat st1) (Z.to_nat sz1) = nest_bytes (slice data (Z.to_nat start) (Z.to_nat size)) l) /\
  (~ nest_fits size l -> exists e, nest s0 l = Err e).
Proof.
  induction l as [|[a b] l IH]; intros data start size s0 Ho Hov.
  - cbn. split; [eauto|]. split; [|tauto]. intros s1 [= <-]. eauto.
  - cbn [nest nest_fits nest_bytes]. unfold seek_section.
    pose proof Ho as (O1 & O2 & O3 & O4 & O5 & O6 & O7).
    pose proof (Hov a b (or_introl eq_refl)) as Hab.
    destruct (a <? 0) eqn:Ha; [split; [lia|]; split; [discriminate|eauto]|].
    destruct (b <? 0) eqn:Hb; [split; [lia|]; split; [discriminate|eauto]|].
    rewrite wrap64_id by (unfold is_int64, two63 in *; lia). rewrite O2.
    destruct (a + b >? size) eqn:Hab2; [split; [lia|]; split; [discriminate|eauto]|].
    set (s1 := MkSeek _ _ _ _ _ _ _).
    assert (Ho1 : seek_over data (start + a) b s1).
    { subst s1. unfold seek_over. cbn. rewrite O1, wrap64_id by (unfold is_int64, two63 in *; lia). splits; try lia; assumption. }
    destruct (IH data (start + a) b s1 Ho1) as (I1 & I2 & I3).
    { intros a' b' Hi. apply Hov. right. exact Hi. }
    split; [intros (_ & _ & _ & Hf); exact (I1 Hf)|]. split.
    + intros s2 Hs2. destruct (I2 s2 Hs2) as (F1 & st2 & sz2 & F2 & F3). split; [splits; try lia; exact F1|].
      exists st2, sz2. split; [exact F2|]. rewrite F3. f_equal.
      rewrite slice_slice by lia. f_equal. lia.
    + intros Hn. apply I3. intros Hf. apply Hn. splits; try lia. exact Hf.
Qed.

(** Section succeeds exactly when the window fits, at every nesting depth,
    and the result reads exactly the window; the checkpoints of a section
    lead back into the window (C02 applies to it as well). Partial: windows
    whose end overflows int64 are excluded, see below. *)
Theorem C04_section_isolation_partial : forall data start size s0 l,
  seek_over data start size s0 -> (forall a b, In (a, b) l -> a + b < two63) ->
  (nest_fits size l <-> exists s1, nest s0 l = Ok s1) /\
  forall s1, nest s0 l = Ok s1 ->
    let W := nest_bytes (slice data (Z.to_nat start) (Z.to_nat size)) l in
    seek_size s1 = zlen W /\
    (rs_good (ss_rs s0) -> l <> [] -> exists st, seek_resume s1 None = (st, Ok 0)) /\
    forall (c0 : option (sckpt unit)) st z, (forall x, c0 = Some x -> 0 <= ck_off x <= zlen W) -> seek_resume s1 c0 = (st, Ok z) ->
    forall ops st' (evs : list (tev unit)) bad, trace seek_source st ops = (st', evs, bad) ->
      bad = false /\ tdata evs = slice W (Z.to_nat z) (length (tdata evs)) /\
      z + zlen (tdata evs) <= zlen W /\
      forall ev c, In ev evs -> In c (te_cks ev) -> 0 <= ck_off c < zlen W.
Proof.
  intros data start size s0 l Ho Hov. destruct (nest_over l data start size s0 Ho Hov) as (N1 & N2 & N3).
  split; [split; [exact N1|intros (s1 & H); exact (proj1 (N2 s1 H))]|].
  intros s1 Hs1. destruct (N2 s1 Hs1) as (_ & st1 & sz1 & Ho1 & HW). cbv zeta. rewrite <- HW.
  pose proof (seek_over_len _ _ _ _ Ho1) as Hl. unfold seek_data in Hl.
  pose proof Ho1 as (O1 & O2 & O3 & O4 & O5 & O6 & O7). rewrite Hl.
  split; [unfold seek_size; lia|]. split.
  { intros Hg _. destruct (seek_resume_good s1 None) as (st & E); [|rewrite O1; lia|eauto].
    assert (Hrs : forall l s s', nest s l = Ok s' -> ss_rs s' = ss_rs s).
    { clear. induction l as [|[a b] l IH]; intros s s'; cbn [nest]; [intros [= <-]; reflexivity|].
      unfold seek_section. destruct (a <? 0); [discriminate|]. destruct (b <? 0); [discriminate|].
      destruct (_ >? _); [discriminate|]. intros H. rewrite (IH _ _ H). reflexivity. }
    rewrite (Hrs _ _ _ Hs1). exact Hg. }
  intros c0 st z Hc0 Hr ops st' evs bad Ht.
  destruct (seek_resumed _ _ _ _ _ _ _ Ho1 Hc0 Hr) as (_ & Hz & m & Hat).
  destruct (seek_trace_full data st1 sz1 false O5 ops st _ m st' evs bad Hat Ht) as (Hb & T1 & _).
  change (s_ck seek_source) with unit in *.
  destruct (tr_ok_data _ _ _ _ _ _ T1 ltac:(unfold seek_data, zlen in *; lia)) as [D1 D2]. unfold seek_data in D1, D2.
  split; [exact Hb|]. split; [exact D1|]. split; [unfold zlen in *; lia|].
  intros ev c Hi Hc. apply in_split in Hi. destruct Hi as (pre & post & He).
  destruct (C02_seek_checkpoints_resume _ _ _ _ _ _ _ _ _ _ _ _ _ _ c Ho1 Hc0 Hr Ht He Hc) as (_ & _ & H & _). exact H.
Qed.

Example C04_example :
  nest_fits 11 [(2, 8); (3, 4)] /\
  (exists s1, nest (seek_from_bytes (s2b "hello world")) [(2, 8); (3, 4)] = Ok s1 /\ exists st, seek_resume s1 None = (st, Ok 0) /\
  tdata (snd (fst (trace seek_source st [CRead 3; CRead 3]))) = s2b " wor") /\
  nest_bytes (s2b "hello world") [(2, 8); (3, 4)] = s2b " wor".
Proof.
  split; [cbn; lia|]. split; [|vm_compute; reflexivity].
  eexists. split; [cbn; reflexivity|]. eexists. split; [cbn; reflexivity|]. vm_compute. reflexivity.
Qed.

(** The full property is false: a window that ends beyond 2^63 is accepted
    although it does not fit (the sum overflows), and the resulting source
    claims a size that is not there. *)
Theorem C04_section_overflow_refuted :
  exists s0 a b s1, seek_over (s2b "hello") 0 5 s0 /\ is_int64 a /\ is_int64 b /\
    seek_section s0 a b = Ok s1 /\ a + b > seek_size s0 /\ seek_size s1 > seek_size s0.
Proof.
  exists (seek_from_bytes (s2b "hello")), 1, (two63 - 1). eexists.
  split; [unfold seek_over; splits; first [reflexivity | vm_compute; reflexivity | vm_compute; discriminate]|].
  split; [vm_compute; intuition discriminate|]. split; [vm_compute; intuition discriminate|].
  split; [cbn; reflexivity|]. vm_compute. split; reflexivity.
Qed.

(** ** C05 *)

(** Refuted: with a checkpoint offset beyond Size(), Resume succeeds and then
    Read panics ... *)
Theorem C05_read_panics_refuted :
  exists s0 c st, seek_over (s2b "hello world") 2 3 s0 /\ seek_resume s0 (Some c) = (st, Ok (ck_off c)) /\
    ck_off c > seek_size s0 /\ snd (seek_read (K := unit) (fun _ k => (k, COk)) st tt 1) = RPanic.
Proof.
  exists (MkSeek (ex_rs (s2b "hello world")) None false false 2 0 3), (MkCk 4 None). eexists.
  split; [unfold seek_over; splits; first [reflexivity | vm_compute; reflexivity | vm_compute; discriminate]|].
  split; [cbn; reflexivity|]. split; [vm_compute; reflexivity|vm_compute; reflexivity].
Qed.
(** ... and ReadByte returns a byte from outside the window. *)
Theorem C05_readbyte_outside_refuted :
  exists s0 c st, seek_over (s2b "hello world") 2 3 s0 /\ seek_resume s0 (Some c) = (st, Ok (ck_off c)) /\
    ck_off c > seek_size s0 /\
    snd (seek_readbyte (K := unit) (fun _ k => (k, COk)) st tt) = BRet "w"%char None /\
    ~ In "w"%char (slice (s2b "hello world") 2 3).
Proof.
  exists (MkSeek (ex_rs (s2b "hello world")) None false false 2 0 3), (MkCk 4 None). eexists.
  split; [unfold seek_over; splits; first [reflexivity | vm_compute; reflexivity | vm_compute; discriminate]|].
  split; [cbn; reflexivity|]. split; [vm_compute; reflexivity|]. split; [vm_compute; reflexivity|].
  vm_compute. intuition discriminate.
Qed.

(** What does hold: with any in-range offset, nothing panics and nothing is
    delivered from outside; the bytes are those of the window. A negative
    offset is refused and nothing changes (C07). *)
Theorem C05_in_range_stays_inside_partial : forall data start size s0 (c : sckpt unit) st r,
  seek_over data start size s0 -> 0 <= ck_off c <= size -> seek_resume s0 (Some c) = (st, r) ->
  (forall z, r = Ok z -> forall ops st' evs bad, trace seek_source st ops = (st', evs, bad) ->
     bad = false /\ ck_off c + zlen (tdata evs) <= size /\
     tdata evs = slice (slice data (Z.to_nat start) (Z.to_nat size)) (Z.to_nat (ck_off c)) (length (tdata evs))) /\
  r <> Panic /\ r <> Hang.
Proof.
  intros data start size s0 c st r Ho Hc Hr. split.
  - intros z -> ops st' evs bad Ht.
    assert (Hc' : forall x : sckpt unit, Some c = Some x -> 0 <= ck_off x <= size) by (intros x [= <-]; lia).
    destruct (seek_resumed _ _ _ _ _ _ _ Ho Hc' Hr) as (Hz & _ & m & Hat). subst z.
    pose proof (seek_over_len _ _ _ _ Ho) as Hl. pose proof Ho as (O1 & O2 & O3 & O4 & O5 & O6 & O7).
    destruct (seek_trace_full data start size false O5 ops st _ m st' evs bad Hat Ht) as (Hb & T1 & _).
    destruct (tr_ok_data _ _ _ _ _ _ T1 ltac:(unfold zlen in *; lia)) as [D1 D2].
    split; [exact Hb|]. split; [unfold zlen in *; lia|exact D1].
  - clear -Hr. unfold seek_resume in Hr. destruct (ck_off c <? 0); [inversion Hr; split; discriminate|].
    destruct (rs_seek _ _) as [? [?|]]; inversion Hr; split; discriminate.
Qed.

(** ** C06 *)

(** A stack that was never resumed: constructed, then any sequence of
    SetSourceSaveConsumer, WantSave, Read and ReadByte calls. *)
Inductive unresumed (k : stk) : s_st (stk_source k) -> Prop :=
| UnNew rs start size : unresumed k (stk_new k rs start size)
| UnSsc st : unresumed k st -> unresumed k (s_setssc (stk_source k) st)
| UnOps st ops st' evs bad : unresumed k st -> trace (stk_source k) st ops = (st', evs, bad) -> unresumed k st'.

Definition never_resumed (k : stk) : s_st (stk_source k) -> Prop :=
  match k return s_st (stk_source k) -> Prop with
  | KSeek => fun s => ss_br s = None
  | KDec C cfg fuel s => fun st => ds_sr C (stk_source s) st = None
  end.

Lemma never_resumed_reads k st : never_resumed k st ->
  (forall K (cb : callback _ K) (kk : K) n, s_read (stk_source k) cb st kk n = (st, kk, RRet [] (Some EUninit))) /\
  (forall K (cb : callback _ K) (kk : K), s_readbyte (stk_source k) cb st kk = (st, kk, BRet zero (Some EUninit))) /\
  never_resumed k (s_setssc (stk_source k) st) /\ never_resumed k (s_want (stk_source k) st).
Proof.
  destruct k as [|C cfg fuel s]; cbn; intros H; splits; try exact H; intros.
  - unfold seek_read. rewrite H. reflexivity.
  - unfold seek_readbyte. rewrite H. reflexivity.
  - unfold dcomp_read. rewrite H. reflexivity.
  - unfold dcomp_readbyte. rewrite H. reflexivity.
Qed.

Lemma unresumed_trace k : forall ops st st' evs bad, never_resumed k st -> trace (stk_source k) st ops = (st', evs, bad) ->
  never_resumed k st' /\ bad = false /\ forall ev, In ev evs -> te_data ev = [] /\ te_cks ev = [] /\
    (te_op ev <> CWant -> te_err ev = Some EUninit).
Proof.
  induction ops as [|op ops IH]; intros st st' evs bad Hn.
  - injection 1 as <- <- <-. splits; auto. intros ? [].
  - destruct (never_resumed_reads k st Hn) as (R1 & R2 & R3 & R4). cbn [trace]. destruct op as [n| |].
    + rewrite R1. destruct (trace (stk_source k) st ops) as [[s2 e2] b2] eqn:E. intros [= <- <- <-].
      destruct (IH _ _ _ _ Hn E) as (I1 & I2 & I3). splits; auto. intros ev [<- | Hi]; cbn; auto.
    + rewrite R2. destruct (trace (stk_source k) st ops) as [[s2 e2] b2] eqn:E. intros [= <- <- <-].
      destruct (IH _ _ _ _ Hn E) as (I1 & I2 & I3). splits; auto. intros ev [<- | Hi]; cbn; auto.
    + destruct (trace (stk_source k) _ ops) as [[s2 e2] b2] eqn:E. intros [= <- <- <-].
      destruct (IH _ _ _ _ R4 E) as (I1 & I2 & I3). splits; auto. intros ev [<- | Hi]; [|auto]. cbn. splits; auto. intros H; contradiction.
Qed.

Theorem C06_no_data_before_resume : forall k st ops st' evs bad,
  unresumed k st -> trace (stk_source k) st ops = (st', evs, bad) ->
  bad = false /\ forall ev, In ev evs ->
    te_data ev = [] /\ te_cks ev = [] /\ (te_op ev <> CWant -> te_err ev = Some EUninit).
Proof.
  intros k st ops st' evs bad Hu Ht.
  assert (Hn : never_resumed k st).
  { clear ops st' evs bad Ht. induction Hu as [rs start size|st Hu IH|st ops st' evs bad Hu IH Ht].
    - destruct k; reflexivity.
    - exact (proj1 (proj2 (proj2 (never_resumed_reads k st IH)))).
    - exact (proj1 (unresumed_trace k _ _ _ _ _ IH Ht)). }
  exact (proj2 (unresumed_trace k _ _ _ _ _ Hn Ht)).
Qed.

Example C06_example : unresumed (ex_stk false false) (stk_new (ex_stk false false) (ex_rs ex_in) 0 8) /\
  map te_err (snd (fst (trace (stk_source (ex_stk false false)) (stk_new (ex_stk false false) (ex_rs ex_in) 0 8) [CRead 0; CWant; CReadByte; CRead 5])))
  = [Some EUninit; None; Some EUninit; Some EUninit].
Proof. split; [constructor|]. vm_compute. reflexivity. Qed.

(** ** C07 *)
Theorem C07_negative_offset_rejected : forall s (c : sckpt unit), ck_off c < 0 ->
  exists e, snd (seek_resume s (Some c)) = Err e /\
  (* position, buffered data and everything else as before *)
  seek_tell (fst (seek_resume s (Some c))) = seek_tell s /\
  forall ops, trace seek_source (fst (seek_resume s (Some c))) ops = trace seek_source s ops.
Proof.
  intros s c Hc. unfold seek_resume. replace (ck_off c <? 0) with true by lia. cbn [fst snd].
  exists ENegOffset. auto.
Qed.

Example C07_example : snd (seek_resume (seek_from_bytes (s2b "hello")) (Some (MkCk (-1) None))) = Err ENegOffset.
Proof. vm_compute. reflexivity. Qed.

(** ** C08 *)

(** Seek source. *)
Theorem C08_seek_progress : forall data start size s0 (c0 : option (sckpt unit)) st z,
  seek_over data start size s0 -> (forall x, c0 = Some x -> 0 <= ck_off x <= size) -> seek_resume s0 c0 = (st, Ok z) ->
  (c0 = None -> (seek_progress st == 0)%Q) /\
  forall ops st' evs bad, trace seek_source st ops = (st', evs, bad) ->
    (0 <= seek_progress st' <= 1)%Q /\
    (size > 0 -> (seek_progress st' == inject_Z (z + zlen (tdata evs)) / inject_Z size)%Q) /\
    (size > 0 -> (exists ev, In ev evs /\ te_err ev = Some EEof) -> (seek_progress st' == 1)%Q) /\
    forall ops2 st2 evs2 bad2, trace seek_source st' ops2 = (st2, evs2, bad2) -> (seek_progress st' <= seek_progress st2)%Q.
Proof.
  intros data start size s0 c0 st z Ho Hc0 Hr.
  pose proof (seek_over_len _ _ _ _ Ho) as Hl. pose proof Ho as (O1 & O2 & O3 & O4 & O5 & O6 & O7).
  destruct (seek_resumed _ _ _ _ _ _ _ Ho Hc0 Hr) as (Hz & Hzr & m & Hat).
  split.
  { intros ->. subst z. destruct Hat as (_ & Hof & _). unfold seek_progress. rewrite Hof. change (Z.of_nat (Z.to_nat 0)) with 0.
    destruct (ss_size st >? 0); [|reflexivity]. unfold Qdiv. rewrite Qmult_0_l. reflexivity. }
  intros ops st' evs bad Ht.
  destruct (seek_trace_full data start size false O5 ops st _ m st' evs bad Hat Ht) as (_ & T1 & (m' & T2) & _).
  destruct (seek_progress_q data start size false O5 _ _ _ T2) as [P1 P2].
  split; [exact P1|].
  assert (Heq : Z.of_nat (Z.to_nat z + length (tdata evs)) = z + zlen (tdata evs)) by (unfold zlen; lia).
  split; [intros Hs; rewrite (P2 Hs), Heq; reflexivity|]. split.
  - intros Hs (ev & Hi & He). apply in_split in Hi. destruct Hi as (pre & post & ->).
    pose proof (tr_ok_at _ _ _ _ pre ev post _ T1) as Hev. cbn [tr_ok] in Hev.
    destruct Hev as (_ & _ & _ & _ & Hev & _). destruct (Hev _ He) as [[_ Hx]|(_ & Hx & _)]; [|congruence].
    destruct (tr_ok_data _ _ _ _ _ _ T1 ltac:(unfold zlen in *; lia)) as [_ D2].
    assert (Hend : (Z.to_nat z + length (tdata (pre ++ ev :: post)))%nat = Z.to_nat size).
    { rewrite tdata_app, tdata_cons, !app_length in D2 |- *. unfold zlen in Hl. lia. }
    rewrite (P2 Hs), Hend. rewrite Z2Nat.id by lia. field. unfold Qeq. cbn. lia.
  - intros ops2 st2 evs2 bad2 Ht2.
    destruct (seek_trace_full data start size false O5 ops2 st' _ m' st2 evs2 bad2 T2 Ht2) as (_ & _ & (m2 & U2) & _).
    eapply seek_progress_mono; [exact O5|exact T2|exact U2|lia].
Qed.

(** Decompressing and counting sources report the progress of what they
    wrap, whatever the state; for stacks this stays within [0,1]. *)
Theorem C08_wrapped_progress :
  (forall C cfg I fuel st, s_progress (dcomp_source C cfg I fuel) st = s_progress I (ds_in C I st)) /\
  (forall X c, s_progress (counting_source X) c = s_progress (k_src X) (cs_src X c)) /\
  (forall pol data start size k D tm b byt p late rs st,
     stk_den pol data start size k D tm b byt p late -> life pol data start size k byt rs st true ->
     (0 <= s_progress (stk_source k) st <= 1)%Q).
Proof.
  split; [reflexivity|]. split; [reflexivity|].
  intros pol data start size k D tm b byt p late rs st Hden Hl.
  destruct (stk_laws _ _ _ _ _ _ _ _ _ _ _ Hden) as (L & HF).
  destruct (life_ok pol data start size k D tm b byt p late L HF) as [H _].
  destruct (H _ _ _ Hl) as (_ & _ & H2). destruct (H2 eq_refl) as (o & m & Hat). exact (lw_prog _ _ _ L _ _ _ Hat).
Qed.

(** Out-of-range checkpoints are accepted and give progress beyond 1; the
    statement is therefore restricted to in-range checkpoints (the quantifier of
    the property). *)
Example C08_out_of_range : exists st, seek_resume (seek_from_bytes (s2b "hello")) (Some (MkCk 10 None)) = (st, Ok 10) /\ (seek_progress st == 2)%Q.
Proof. eexists. split; [cbn; reflexivity|]. vm_compute. reflexivity. Qed.
Example C08_example : exists st, seek_resume (seek_from_bytes (s2b "hello")) None = (st, Ok 0) /\
  (seek_progress (fst (fst (trace seek_source st [CRead 2]))) == 2 # 5)%Q.
Proof. eexists. split; [cbn; reflexivity|]. vm_compute. reflexivity. Qed.

(** ** C09: for any wrapped source, not only a seek source *)
Theorem C09_counting_transparent : forall (X : seeksource) (c : cstate X),
  let s := cs_src X c in
  (* operations, with everything the client sees *)
  (forall ops, let '(c', evs, bad) := trace (counting_source X) c ops in
     trace (k_src X) s ops = (cs_src X c', evs, bad)) /\
  (forall ck, let '(c', r) := s_resume (counting_source X) c ck in s_resume (k_src X) s ck = (cs_src X c', r)) /\
  (forall a b, match k_section (counting_seeksource X) c a b with
     | Ok c' => k_section X s a b = Ok (cs_src X c')
     | Err e => k_section X s a b = Err e
     | Panic => k_section X s a b = Panic
     | Hang => k_section X s a b = Hang
     end) /\
  k_tell (counting_seeksource X) c = k_tell X s /\ k_size (counting_seeksource X) c = k_size X s /\
  cs_src X (s_setssc (counting_source X) c) = s_setssc (k_src X) s /\
  cs_src X (s_want (counting_source X) c) = s_want (k_src X) s /\
  (* also for a consumer that fails or panics *)
  (forall K (cb : callback (s_ck (k_src X)) K) kk n, let '(c', k', r) := s_read (counting_source X) cb c kk n in
     s_read (k_src X) cb s kk n = (cs_src X c', k', r)) /\
  (forall K (cb : callback (s_ck (k_src X)) K) kk, let '(c', k', r) := s_readbyte (counting_source X) cb c kk in
     s_readbyte (k_src X) cb s kk = (cs_src X c', k', r)).
Proof.
  intros X c s. subst s.
  assert (Hb : forall s' n (c0 : cstate X), cs_src X (counting_bump X s' n c0) = s').
  { intros. unfold counting_bump. destruct (_ >? _); reflexivity. }
  split; [|split; [|split; [|split; [|split; [|split; [|split; [|split]]]]]]]; try reflexivity.
  - intros ops. destruct (trace (counting_source X) c ops) as [[c' evs] bad] eqn:E. exact (proj1 (counting_trace X _ _ _ _ _ E)).
  - intros ck. cbn. unfold counting_resume. destruct (s_resume (k_src X) (cs_src X c) ck) as [s' r]. reflexivity.
  - intros a b. cbn. unfold counting_section. destruct (k_section X (cs_src X c) a b); reflexivity.
  - intros K cb kk n. cbn. unfold counting_read. destruct (s_read (k_src X) cb (cs_src X c) kk n) as [[s' k'] [d e| |]]; rewrite ?Hb; reflexivity.
  - intros K cb kk. cbn. unfold counting_readbyte. destruct (s_readbyte (k_src X) cb (cs_src X c) kk) as [[s' k'] [b [e|]| |]]; rewrite ?Hb; reflexivity.
Qed.

(** ** C10 *)

(** Nested sections of a counting source. *)
Fixpoint cnest (c : cstate seek_seeksource) (l : list (Z * Z)) : res (cstate seek_seeksource) :=
  match l with
  | [] => Ok c
  | (a, b) :: l' => match counting_section seek_seeksource c a b with Ok c1 => cnest c1 l' | r => r end
  end.

Theorem C10_counting_callback : forall data start size s0 l c1 (c0 : option (sckpt unit)) c2 z ops c3 (evs : list (tev unit)) bad,
  seek_over data start size s0 -> (forall a b, In (a, b) l -> a + b < two63) ->
  cnest (counting_new seek_seeksource s0) l = Ok c1 ->
  (forall x, c0 = Some x -> 0 <= ck_off x <= seek_size (cs_src seek_seeksource c1)) ->
  counting_resume seek_seeksource c1 c0 = (c2, Ok z) ->
  trace (counting_source seek_seeksource) c2 ops = (c3, evs, bad) ->
  let base := fold_right (fun p acc => fst p + acc) 0 l in
  let vals := expect_log read_byte_threshold base z 0 evs in
  (* the callback received exactly these values, in this order *)
  rev (cs_log seek_seeksource c3) = vals /\
  (* each is a position the reader had reached, relative to the outermost source *)
  (forall v, In v vals -> exists pre ev post, evs = pre ++ ev :: post /\ v = base + z + zlen (tdata (pre ++ [ev]))) /\
  Sorted Z.le vals.
Proof.
  intros data start size s0 l c1 c0 c2 z ops c3 evs bad Ho Hov Hn Hc0 Hr Ht base vals.
  assert (Hnest : forall l0 c c', cnest c l0 = Ok c' -> cs_base seek_seeksource c' = cs_base seek_seeksource c + fold_right (fun p acc => fst p + acc) 0 l0
     /\ cs_log seek_seeksource c' = cs_log seek_seeksource c /\ nest (cs_src seek_seeksource c) l0 = Ok (cs_src seek_seeksource c')
     /\ (cs_n seek_seeksource c = 0 -> cs_n seek_seeksource c' = 0)).
  { clear. induction l0 as [|[a b] l0 IH]; intros c c'; cbn [cnest nest fold_right fst].
    - intros [= <-]. splits; auto. lia.
    - unfold counting_section. cbn [seek_seeksource k_section].
      destruct (seek_section (cs_src seek_seeksource c) a b) as [s1| | |]; try discriminate.
      intros H. destruct (IH _ _ H) as (I1 & I2 & I3 & I4). cbn [cs_base cs_log cs_src cs_n] in *. splits; auto. lia. }
  destruct (Hnest _ _ _ Hn) as (B1 & B2 & B3 & B4). cbn [counting_new cs_base cs_log cs_src cs_n] in *.
  destruct (proj1 (proj2 (nest_over l data start size s0 Ho Hov)) _ B3) as (_ & st1 & sz1 & Ho1 & _).
  unfold counting_resume in Hr. change (k_src seek_seeksource) with seek_source in Hr.
  destruct (s_resume seek_source (cs_src seek_seeksource c1) c0) as [s2 r2] eqn:Hr2. change (seek_resume (cs_src seek_seeksource c1) c0 = (s2, r2)) in Hr2.
  injection Hr as <- ->.
  pose proof Ho1 as (_ & Hsz & _ & O4 & O5 & O6 & O7).
  assert (Hc0' : forall x, c0 = Some x -> 0 <= ck_off x <= sz1).
  { intros x Hx. specialize (Hc0 x Hx). unfold seek_size in Hc0. change (k_src seek_seeksource) with seek_source in *. rewrite Hsz in Hc0. exact Hc0. }
  destruct (seek_resumed _ _ _ _ _ _ _ Ho1 Hc0' Hr2) as (_ & Hz & m & Hat).
  set (c2 := MkCount _ _ _ _ _) in Ht.
  destruct (counting_log data st1 sz1 false O5 ops c2 (Z.to_nat z) m c3 evs bad) as [Hlog _]; auto.
  { subst c2. cbn. rewrite (B4 eq_refl). unfold read_byte_threshold. lia. }
  subst c2. cbn [cs_base cs_n cs_log] in Hlog. rewrite (B4 eq_refl), B1, B2, Z.add_0_l, Z2Nat.id, app_nil_r in Hlog by lia.
  split; [rewrite Hlog, rev_involutive; reflexivity|].
  split; [intros v Hv; exact (expect_log_in _ _ _ _ _ _ Hv)|]. exact (proj1 (expect_log_sorted _ _ _ _ _)).
Qed.

(** "each time more than 128KiB": the specification [expect_log] calls back
    at exactly those operations after which more than 131072 bytes were delivered
    since the last call; in particular a stretch of operations that delivers
    more than that contains a call. *)
Theorem C10_counting_fires : forall {CK} (evs : list (tev CK)) base z n,
  0 <= n <= read_byte_threshold -> n + zlen (tdata evs) > read_byte_threshold ->
  expect_log read_byte_threshold base z n evs <> [].
Proof.
  intros CK. induction evs as [|ev evs IH]; intros base z n Hn Hgt.
  - change (zlen (@tdata CK [])) with 0 in Hgt. lia.
  - cbn [expect_log]. destruct (n + zlen (te_data ev) >? read_byte_threshold) eqn:Hx; [discriminate|].
    apply IH; [unfold zlen in *; lia|]. rewrite tdata_cons in Hgt. unfold zlen in *. rewrite app_length in Hgt. lia.
Qed.

Example C10_example :
  let n := Z.to_nat 140000 in
  let s0 := seek_new (ex_rs (repeat "a"%char n)) 140000 in
  exists c1 c2, cnest (counting_new seek_seeksource s0) [(1000, 139000); (500, 138000)] = Ok c1 /\ 
  counting_resume seek_seeksource c1 None = (c2, Ok 0) /\ 
  cs_log seek_seeksource (fst (fst (trace (counting_source seek_seeksource) c2 [CRead (Z.to_nat 131072); CReadByte; CRead 10]))) = [132573].
Proof.
  eexists. eexists. split; [cbn -[repeat Z.to_nat]; reflexivity|]. split; [cbn -[repeat Z.to_nat]; reflexivity|]. vm_compute. reflexivity.
Qed.

(** ** C11 *)

(** On any stack of seek and decompressing sources, anywhere in its life. The
    position is described by what reads before and after deliver. *)
Theorem C11_discard_advances_exactly : forall pol data start size k D tm b byt p late rs st c z st0 bb ops st1 evs bad,
  stk_den pol data start size k D tm b byt p late ->
  life pol data start size k byt rs st0 bb ->
  (forall x, c = Some x -> emitted pol data start size k byt x) ->
  s_resume (stk_source k) st0 c = (st, Ok z) -> Forall (op_ok byt) ops -> trace (stk_source k) st ops = (st1, evs, bad) ->
  let pos := (Z.to_nat z + length (tdata evs))%nat in
  forall delta fuel st2 cks r, (b < fuel)%nat ->
  discard_by_read (stk_source k) rec_cb fuel st1 [] delta = (st2, cks, r) ->
  exists pos2,
  (* the next operations continue at pos2 *)
  (forall ops2 st3 evs2 bad2, Forall (op_ok byt) ops2 -> trace (stk_source k) st2 ops2 = (st3, evs2, bad2) ->
     bad2 = false /\ tr_ok D tm (~ rs_good rs) late pos2 evs2) /\
  (pos <= pos2 <= length D)%nat /\ (pos2 <= pos + Z.to_nat delta)%nat /\
  match r with
  | Ok _ => pos2 = (pos + Z.to_nat delta)%nat
  | Err e => e <> EEof /\ (rs_good rs -> pos2 = length D /\ e = with_stack tm /\ (p = true -> Z.of_nat pos2 < Z.of_nat pos + delta))
  | _ => False
  end.
Proof.
  intros pol data start size k D tm b byt p late rs st c z st0 bb ops st1 evs bad Hden Hl Hc Hr Hops Ht pos delta fuel st2 cks r Hf Hd.
  destruct (stk_laws _ _ _ _ _ _ _ _ _ _ _ Hden) as (L & HF).
  destruct (life_ok pol data start size k D tm b byt p late L HF) as [Hlife Hem].
  destruct (Hlife _ _ _ Hl) as (I1 & I2 & _).
  destruct (lw_resume _ _ _ L _ c _ _ I1 (fun x Hx => Hem x (Hc x Hx)) Hr) as (_ & m & Hat & _ & Hcl).
  destruct (trace_ok L byt (sf_byte _ _ _ _ _ _ _ _ _ _ _ _ HF) ops st _ m st1 evs bad Hops Hat Ht)
    as (_ & _ & (m1 & G1 & _) & G2 & _).
  fold pos in G1.
  pose proof (lw_at_len _ _ _ L _ _ _ G1) as [Hpl Hm1]. rewrite (sf_bound _ _ _ _ _ _ _ _ _ _ _ _ HF) in Hm1.
  destruct (discard_ok L _ rec_cb (fun _ => True) fuel st1 [] delta pos m1 st2 cks r) as (_ & _ & D3);
    [intros c0 k0 k1 rr _ _ Hcb _; unfold rec_cb in Hcb; injection Hcb as _ <-; auto|exact Logic.I|exact G1|lia|exact Hd|].
  assert (Hnext : forall pos2 m2, lw_at L st2 pos2 m2 -> (rs_good rs -> lw_clean L st2) ->
     forall ops2 st3 evs2 bad2, Forall (op_ok byt) ops2 -> trace (stk_source k) st2 ops2 = (st3, evs2, bad2) ->
     bad2 = false /\ tr_ok D tm (~ rs_good rs) late pos2 evs2).
  { intros pos2 m2 Ha2 Hc2 ops2 st3 evs2 bad2 Ho2 Ht2.
    destruct (trace_ok L byt (sf_byte _ _ _ _ _ _ _ _ _ _ _ _ HF) ops2 st2 _ m2 st3 evs2 bad2 Ho2 Ha2 Ht2) as (Hb & Htr & _).
    split; [exact Hb|]. rewrite (sf_late _ _ _ _ _ _ _ _ _ _ _ _ HF) in Htr. eapply tr_ok_weaken; [|exact Htr]. tauto. }
  destruct r as [u|e| |]; try (destruct D3; fail).
  - destruct D3 as (m2 & Ha2 & _ & Hc2). exists (pos + Z.to_nat delta)%nat.
    pose proof (lw_at_len _ _ _ L _ _ _ Ha2) as [Hpl2 _].
    split; [apply (Hnext _ m2 Ha2); auto|]. splits; try lia.
  - destruct D3 as (o2 & m2 & Ha2 & Ho2 & Hc2 & He & Hcase). exists o2.
    pose proof (lw_at_len _ _ _ L _ _ _ Ha2) as [Hpl2 _].
    split; [apply (Hnext _ m2 Ha2); auto|]. split; [lia|]. split; [lia|]. split; [exact He|].
    intros Hg. destruct Hcase as [Hn|(E1 & E2 & E3 & E4)]; [exfalso; auto|].
    split; [exact E1|]. split; [exact E2|]. intros Hp. rewrite (sf_pol _ _ _ _ _ _ _ _ _ _ _ _ HF) in E4.
    destruct (Nat.eq_dec (Z.to_nat delta + pos) (length D)) as [Heq|Hne]; [rewrite (E4 Heq) in Hp; discriminate|]. lia.
Qed.
