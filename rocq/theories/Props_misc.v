(** Props_misc.v -- properties C50-C52, C54: results, NopSink, checker.Writer, semirandom. *)
From Verif Require Import Base Base_proofs Source Sink SinkSpec Seek Decomp CodecSpec Contract Drive Stack_proofs Zip ZipSpec Props_zip
  Tar TarSpec ExCodec ExTar ExZip Props_tar Misc.

(** ** C50 *)
Definition total_size (es : list entry) : Z := fold_right Z.add 0 (map en_usize es).
Definition count (k : ekind) (es : list entry) : nat :=
  length (filter (fun e => match en_kind e, k with EkDir, EkDir | EkSymlink, EkSymlink | EkFile, EkFile => true | _, _ => false end) es).

Lemma wrap64_add a b : wrap64 (wrap64 a + b) = wrap64 (a + b).
Proof.
  unfold wrap64. replace ((a + two63) mod two64 - two63 + b + two63) with ((a + two63) mod two64 + b) by lia.
  rewrite Zplus_mod_idemp_l. do 2 f_equal. lia.
Qed.
Lemma size_fold es : forall t, is_int64 t -> fold_left (fun t e => wrap64 (t + en_usize e)) es t = wrap64 (t + total_size es).
Proof.
  induction es as [|e es IH]; intros t Ht; cbn [fold_left]; unfold total_size in *; cbn [map fold_right].
  - rewrite Z.add_0_r. symmetry. apply wrap64_id. exact Ht.
  - rewrite IH by apply wrap64_range. rewrite wrap64_add. f_equal. lia.
Qed.
(** The size is the sum of the sizes of the entries (in 64 bit arithmetic: as
    long as the sum fits). *)
Theorem C50_size es : result_size es = wrap64 (total_size es) /\ (is_int64 (total_size es) -> result_size es = total_size es).
Proof.
  unfold result_size. rewrite size_fold by (unfold is_int64, two63; lia). rewrite Z.add_0_l. split; [reflexivity|].
  apply wrap64_id.
Qed.
Lemma stats_fold es : forall s, is_int64 (st_total s) -> fold_left stats_step es s =
  MkStats (st_files s + Z.of_nat (count EkFile es)) (st_dirs s + Z.of_nat (count EkDir es))
    (st_symlinks s + Z.of_nat (count EkSymlink es)) (wrap64 (st_total s + total_size es)).
Proof.
  induction es as [|e es IH]; intros s Hs; cbn [fold_left].
  - unfold total_size, count. cbn. rewrite !Z.add_0_r, (wrap64_id _ Hs). destruct s; reflexivity.
  - rewrite IH by (unfold stats_step; destruct (en_kind e); apply wrap64_range).
    unfold stats_step, count, total_size. cbn [filter map fold_right]. destruct (en_kind e); cbn [st_files st_dirs st_symlinks st_total length];
      f_equal; try lia; rewrite wrap64_add; f_equal; lia.
Qed.
Theorem C50_stats es : result_stats es =
  MkStats (Z.of_nat (count EkFile es)) (Z.of_nat (count EkDir es)) (Z.of_nat (count EkSymlink es)) (result_size es) /\
  ((forall e n, In e es -> en_kind e <> EkOther n) -> (count EkFile es + count EkDir es + count EkSymlink es = length es)%nat).
Proof.
  split.
  - unfold result_stats. rewrite stats_fold by (unfold is_int64, two63; cbn; lia). cbn [st_files st_dirs st_symlinks st_total].
    rewrite !Z.add_0_l. f_equal. rewrite (proj1 (C50_size es)). reflexivity.
  - induction es as [|e es IH]; intros H; [reflexivity|].
    assert (IH' := IH (fun e' n Hi => H e' n (or_intror Hi))). clear IH.
    unfold count in *. cbn [filter length]. specialize (H e). destruct (en_kind e) as [| | |n] eqn:E; cbn [length]; try lia.
    exfalso. eapply H; [left; reflexivity|reflexivity].
Qed.
(** Not vacuous; and an overflow. *)
Example C50_example :
  let f n := MkEntry [] EkFile 420 0 n 0 [] in let d := MkEntry [] EkDir 420 0 0 0 [] in
  result_stats [f 5; d; f 7; d; f 1] = MkStats 3 2 0 13 /\ result_size [f (two63 - 1); f 2] = - two63 + 1.
Proof. split; vm_compute; reflexivity. Qed.

(** ** C51: NopSink *)
Definition nop_laws : sink_laws nop_sink.
Proof.
  refine (MkSinkLaws nop_sink unit (fun a b => left match a, b with tt, tt => eq_refl end) (fun _ => None) (fun _ _ => False)
    (fun _ => True) (fun _ _ => True) (fun _ _ => True) (fun _ _ => None) (fun _ => True) (fun _ => True) (fun _ _ o _ => o = None)
    _ _ _ _ _ _ _ _ _ _ _ _); cbn [k_st k_w k_mkdir k_symlink k_getw k_prealloc k_nuke k_close k_write k_sync k_closew nop_sink]; try discriminate; auto.
  - intros st e st' r _ _ _ [= <- <-]. splits; auto; discriminate.
  - intros st e t st' r _ _ _ [= <- <-]. splits; auto; discriminate.
  - intros st e st' r _ _ _ [= <- <-]. splits; auto.
  - intros st e st' r _ _ _ _ _ [= <- <-]. splits; auto; discriminate.
  - intros st w o off d st' n adv e _ -> _ [= <- <- <- <-]. splits; auto.
  - intros st w o off st' r _ -> [= <- <-]. splits; auto.
Defined.

(** No operation ever fails, writers report every byte as written and leave
    WriteOffset alone. *)
Theorem C51_nop_sink s w e t d :
  snd (k_mkdir nop_sink s e) = None /\ snd (k_symlink nop_sink s e t) = None /\ snd (k_getw nop_sink s e) = Ok tt /\
  snd (k_prealloc nop_sink s e) = None /\ snd (k_nuke nop_sink s) = None /\ snd (k_close nop_sink s) = None /\
  snd (k_write nop_sink s w d) = (length d, 0, None) /\ snd (k_sync nop_sink s w) = None /\ snd (k_closew nop_sink s w) = None.
Proof. splits; reflexivity. Qed.

(** So extracting to a NopSink completes if nothing is wrong with the archive and its
    source, also from any checkpoint (although WriteOffset is 0 in all of them). *)
Theorem C51_zip_to_nop A C fuel0 pol ms :
  zarchive A C fuel0 pol nop_laws ms -> (forall m, In m ms -> zm_via C fuel0 m <> None -> zm_err m = EEof) -> existsb zencrypted ms = false ->
  exists B, forall SV c io fuel st out, zrun A C fuel0 pol ms nop_laws tt false SV c io fuel st out ->
    (forall i, io_good (io i)) -> saver_goes_on SV -> (B < fuel)%nat ->
    zo_res _ _ _ _ out = Ok (zlisting (zfiles ms)).
Proof.
  intros HA Hs He. destruct (C35_zip_resume_completes A C fuel0 pol nop_sink nop_laws ms HA) as (B & HB); auto.
  { apply Forall_forall. intros m Hm. split; [auto|]. intros _. exact Logic.I. }
  exists B. intros SV c io fuel st out Hrun Hg Hsv Hf. eapply proj1, HB; eauto; exact Logic.I.
Qed.
Theorem C51_tar_to_nop pol data start size k D F N ms :
  tarchive pol data start size k D EEof F N ms true nop_laws ->
  exists B, forall SV c rs fuel st out, trun pol data start size k F nop_laws tt ms SV c rs fuel st out ->
    rs_good rs -> saver_goes_on SV -> (B < fuel)%nat -> exists l, to_res _ _ _ out = Ok l.
Proof.
  intros HA. destruct (C45_tar_resume_completes pol data start size k D EEof F N ms true nop_sink nop_laws HA eq_refl eq_refl) as (B & HB).
  { intros e t _. exact Logic.I. }
  exists B. intros SV c rs fuel st out Hrun Hg Hsv Hf. destruct (HB tt SV c rs fuel st out) as (l & Hl & _); auto; try exact Logic.I. eauto.
Qed.
Example C51_example : exists l, to_res _ _ _ (et_resume nop_sink None tt 0%nat) = Ok l.
Proof. apply is_ok. vm_compute. reflexivity. Qed.
Lemma et_archive_nop : tarchive false et_in 0 54 et_k et_D EEof et_fmt 5 et_ms true nop_laws.
Proof. destruct et_archive as [H1 H2 _]. constructor; auto. apply Settle_proofs.storable_any; intros; exact Logic.I. Qed.

(** ** C52: checker.Writer *)
Lemma skipn_nth {V} (x : V) : forall l n, nth_error l n = Some x -> skipn n l = x :: skipn (S n) l.
Proof. induction l as [|y l IH]; intros [|n] H; try discriminate; cbn in *; [congruence|]. apply IH. exact H. Qed.
Lemma nth_slice {V} (l : list V) o k n : (n < k)%nat -> nth_error (slice l o k) n = nth_error l (o + n).
Proof.
  intros H. unfold slice. revert o k n H. induction l as [|y l IH]; intros [|o] k n H.
  - cbn. rewrite firstn_nil. reflexivity.
  - cbn. rewrite firstn_nil. destruct n; reflexivity.
  - cbn [skipn Nat.add]. clear IH. revert k n H. generalize (y :: l). clear. induction l as [|y l IH]; intros [|k] [|n] H; try lia; auto.
    cbn. apply IH. lia.
  - cbn [skipn Nat.add nth_error]. apply IH. exact H.
Qed.
Lemma cw_loop_spec ref : forall buf off o n r, 0 <= off <= zlen ref -> cw_loop ref off buf = (o, n, r) ->
  o = off + Z.of_nat n /\ 0 <= o <= zlen ref /\ (n <= length buf)%nat /\ firstn n buf = slice ref (Z.to_nat off) n /\
  (r = Ok tt /\ n = length buf \/ (exists e, r = Err e) /\ (n < length buf)%nat /\ nth_error buf n <> nth_error ref (Z.to_nat off + n)).
Proof.
  induction buf as [|b buf IH]; intros off o n r Hoff H; cbn [cw_loop] in H.
  - injection H as <- <- <-. splits; cbn; try lia; auto.
  - destruct (off >=? zlen ref) eqn:E1.
    { injection H as <- <- <-. splits; cbn [length firstn]; try lia; auto. right. splits; eauto; try lia.
      rewrite (proj2 (nth_error_None ref _)) by (unfold zlen in *; lia). discriminate. }
    destruct (off <? 0) eqn:E2; [lia|].
    destruct (nth_error ref (Z.to_nat off)) as [x|] eqn:En.
    2:{ apply nth_error_None in En. unfold zlen in *. lia. }
    destruct (beqb x b) eqn:Eb.
    + destruct (cw_loop ref (off + 1) buf) as [[o1 n1] r1] eqn:El. injection H as <- <- <-.
      apply IH in El; [|lia]. destruct El as (-> & H2 & H3 & H4 & H5). apply Ascii.eqb_eq in Eb. subst x.
      cbn [length]. splits; try lia.
      * cbn [firstn]. rewrite H4. unfold slice. rewrite Z2Nat.inj_add by lia.
        rewrite (skipn_nth _ _ _ En). change (Z.to_nat 1) with 1%nat. rewrite Nat.add_1_r. reflexivity.
      * destruct H5 as [[-> ->]|(H5 & H6 & H7)]; [left; auto|right]. splits; auto; [lia|]. cbn [nth_error].
        intros Hx. apply H7. rewrite Hx. f_equal. lia.
    + injection H as <- <- <-. splits; cbn [length firstn]; try lia; auto. right. splits; eauto; [lia|].
      cbn [nth_error]. rewrite Nat.add_0_r, En. intros [= ->]. unfold beqb in Eb. rewrite (proj2 (Ascii.eqb_eq _ _) eq_refl) in Eb. discriminate.
Qed.
(** A write at offset [off] (from 0 to the length of the reference): n, the number of bytes reported,
    is the length of the longest prefix of the data that agrees with the
    reference from there on; the offset advances by n; the write succeeds iff that is all of
    the data, and is an error otherwise. *)
Theorem C52_checker_write ref off di buf w' di' n r :
  0 <= off <= zlen ref -> cw_write (MkCw ref off) di buf = (w', di', (n, r)) ->
  cw_ref w' = ref /\ cw_off w' = off + Z.of_nat n /\ 0 <= cw_off w' <= zlen ref /\
  (n <= length buf)%nat /\ firstn n buf = slice ref (Z.to_nat off) n /\
  ((n < length buf)%nat -> nth_error buf n <> nth_error ref (Z.to_nat off + n)) /\
  (r = Ok tt <-> buf = slice ref (Z.to_nat off) (length buf)) /\ (r = Ok tt <-> n = length buf) /\
  (r = Ok tt \/ exists e, r = Err e).
Proof.
  intros Ho H. unfold cw_write in H. cbn [cw_ref cw_off] in H. destruct (cw_loop ref off buf) as [[o m] rr] eqn:El.
  pose proof (cw_loop_spec _ _ _ _ _ _ Ho El) as (-> & H2 & H3 & H4 & H5).
  assert (Hw : w' = MkCw ref (off + Z.of_nat m) /\ m = n /\ rr = r) by (destruct rr; injection H as <- _ <- <-; auto).
  destruct Hw as (-> & -> & ->). cbn [cw_ref cw_off]. clear H El. splits; auto; try lia.
  - destruct H5 as [[_ ->]|(_ & _ & H5)]; [lia|auto].
  - split.
    + intros ->. destruct H5 as [[_ ->]|((e & H5) & _)]; [|discriminate]. rewrite firstn_all in H4. exact H4.
    + intros Hb. destruct H5 as [[-> _]|((e & ->) & Hl & Hne)]; [reflexivity|exfalso]. apply Hne.
      rewrite Hb at 1. apply nth_slice. exact Hl.
  - split; [intros ->|intros ->].
    + destruct H5 as [[_ ->]|((e & H5) & _)]; [reflexivity|discriminate].
    + destruct H5 as [[-> _]|(_ & Hl & _)]; [reflexivity|lia].
  - destruct H5 as [[-> _]|(H5 & _)]; auto.
Qed.
(** Seek accepts exactly the offsets from 0 to the length of the reference, so
    the offset always stays in this range. *)
Theorem C52_checker_seek w off whence :
  match cw_seek w off whence with
  | (w', Ok o) => whence = 0 /\ 0 <= off <= zlen (cw_ref w) /\ o = off /\ w' = MkCw (cw_ref w) off
  | (w', Err _) => (whence <> 0 \/ off < 0 \/ zlen (cw_ref w) < off) /\ w' = w
  | _ => False
  end.
Proof.
  unfold cw_seek. destruct (whence =? 0) eqn:E1; cbn [negb]; [|split; [left; lia|reflexivity]].
  destruct (off >? zlen (cw_ref w)) eqn:E2; [split; [lia|reflexivity]|].
  destruct (off <? 0) eqn:E3; [split; [lia|reflexivity]|]. splits; auto; lia.
Qed.
Example C52_example :
  let '(w1, _, r1) := cw_write (cw_new (s2b "hello")) None (s2b "hel") in
  let '(w2, _, r2) := cw_write w1 None (s2b "lx") in
  let '(w3, _, r3) := cw_write w2 None (s2b "op") in
  (r1, r2, r3, cw_off w3) = ((3%nat, Ok tt), (1%nat, Err (EOther 31)), (1%nat, Err (EOther 30)), 5).
Proof. vm_compute. reflexivity. Qed.

(** ** C54: semirandom *)
Section SR.
  Context (R : Type) (intn : R -> Z -> R * Z).
  Notation sr_loop := (sr_loop R intn). Notation sr_write := (sr_write R intn).

  Definition lw_ok (max : Z) (w : lwriter) : Prop := lw_c w = zlen (lw_out w) /\ (0 <= max -> lw_c w <= max).
  Lemma lw_write_ok max w d w' e : lw_ok max w -> lw_write max w d = (w', e) -> lw_ok max w'.
  Proof.
    intros [H1 H2] H. unfold lw_write in H. destruct (lw_c w >=? max) eqn:E; [injection H as <- _; split; auto|].
    set (tw := if lw_c w + zlen d >? max then Z.to_nat (max - lw_c w) else length d) in H.
    assert (Htw : 0 <= max -> lw_c w + zlen (firstn tw d) <= max).
    { intros Hm. unfold zlen in *. rewrite firstn_length. subst tw. destruct (lw_c w + Z.of_nat (length d) >? max) eqn:E2; lia. }
    unfold w_write in H. destruct (lw_orc w) as [|[n|] o]; injection H as <- _; unfold lw_ok; cbn [lw_c lw_out]; unfold zlen in *;
      rewrite app_length, ?firstn_length in *; rewrite ?firstn_length; split; intros; try lia.
  Qed.
  Lemma sr_repeat_ok max seq : forall n w w' e, lw_ok max w -> sr_repeat max n w seq = (w', e) -> lw_ok max w'.
  Proof.
    induction n as [|n IH]; cbn [sr_repeat]; intros w w' e Hw H; [injection H as <- _; exact Hw|].
    destruct (lw_write max w seq) as [w1 [e1|]] eqn:El; apply lw_write_ok in El; auto.
    - injection H as <- _. exact El.
    - eapply IH; eauto.
  Qed.
  Lemma sr_loop_ok max : forall fuel r old w w' x, lw_ok max w -> sr_loop fuel max r old w = (w', x) ->
    lw_ok max w' /\ (x = Ok tt -> max <= lw_c w').
  Proof.
    induction fuel as [|fuel IH]; cbn [Misc.sr_loop]; intros r old w w' x Hw H; destruct (lw_c w <? max) eqn:E;
      try (injection H as <- <-; split; [exact Hw|intros; first [discriminate|lia]]).
    destruct (sr_pick R intn r old) as [[r1 old1] seq]. destruct (intn r1 24) as [r2 k].
    destruct (sr_repeat max (Z.to_nat k) w seq) as [w1 [e|]] eqn:Er; apply sr_repeat_ok in Er; auto.
    - injection H as <- <-. split; [exact Er|discriminate].
    - eapply IH; eauto.
  Qed.
  (** When Write returns without error, the writer has received exactly
      [length] bytes (none for a negative length). If it returns an error, not
      more than that. *)
  Theorem C54_exact_length fuel r len orc w x : sr_write fuel r len orc = (w, x) -> 0 <= len ->
    zlen (lw_out w) <= len /\ (x = Ok tt -> zlen (lw_out w) = len).
  Proof.
    intros H Hl. unfold Misc.sr_write in H. apply sr_loop_ok in H; [|split; [reflexivity|cbn; auto]].
    destruct H as [[H1 H2] H3]. specialize (H2 Hl). split; [lia|]. intros Hx. specialize (H3 Hx). lia.
  Qed.

  (** The run for a shorter length is the same run, cut off. *)
  Definition lw_sim (n m : Z) (v w : lwriter) : Prop :=
    lw_orc v = [] /\ lw_orc w = [] /\ lw_ok n v /\ lw_ok m w /\ lw_out v = firstn (Z.to_nat n) (lw_out w).
  Lemma lw_write_nofail max w d : lw_orc w = [] -> 0 <= max -> lw_ok max w -> exists w', lw_write max w d = (w', None) /\ lw_orc w' = [] /\
    lw_out w' = lw_out w ++ firstn (Z.to_nat (max - lw_c w)) d.
  Proof.
    intros Ho Hm [H1 H2]. unfold lw_write. destruct (lw_c w >=? max) eqn:E.
    - exists w. splits; auto. replace (Z.to_nat (max - lw_c w)) with 0%nat by lia. cbn. rewrite app_nil_r. reflexivity.
    - unfold w_write. rewrite Ho. eexists. split; [reflexivity|]. cbn [lw_out lw_orc]. split; [reflexivity|]. f_equal.
      unfold zlen in *. destruct (lw_c w + Z.of_nat (length d) >? max) eqn:E2; [reflexivity|].
      rewrite firstn_all. symmetry. apply firstn_all2. lia.
  Qed.
  Lemma lw_sim_write n m v w d : 0 <= n <= m -> lw_sim n m v w ->
    exists v' w', lw_write n v d = (v', None) /\ lw_write m w d = (w', None) /\ lw_sim n m v' w'.
  Proof.
    intros Hnm (Hv & Hw & Ov & Ow & Hout).
    destruct (lw_write_nofail n v d Hv ltac:(lia) Ov) as (v' & V1 & V2 & V3).
    destruct (lw_write_nofail m w d Hw ltac:(lia) Ow) as (w' & W1 & W2 & W3).
    exists v', w'. splits; auto. unfold lw_sim. splits; auto.
    - eapply lw_write_ok; eauto.
    - eapply lw_write_ok; eauto.
    - rewrite V3, W3, firstn_app, Hout. f_equal. destruct Ov as [O1 O2]. destruct Ow as [P1 P2].
      specialize (O2 ltac:(lia)). specialize (P2 ltac:(lia)). unfold zlen in *. rewrite Hout, firstn_length in O1.
      rewrite firstn_firstn. f_equal. lia.
  Qed.
  Lemma sr_sim_repeat n m seq : 0 <= n <= m -> forall k v w, lw_sim n m v w ->
    exists v' w', sr_repeat n k v seq = (v', None) /\ sr_repeat m k w seq = (w', None) /\ lw_sim n m v' w'.
  Proof.
    intros Hnm. induction k as [|k IH]; intros v w Hs; cbn [sr_repeat]; [exists v, w; auto|].
    destruct (lw_sim_write n m v w seq Hnm Hs) as (v1 & w1 & -> & -> & H1). apply IH. exact H1.
  Qed.
  Lemma lw_write_prefix max w d w' e : lw_write max w d = (w', e) -> exists s, lw_out w' = lw_out w ++ s.
  Proof.
    unfold lw_write, w_write. destruct (lw_c w >=? max); [injection 1 as <- _; exists []; rewrite app_nil_r; auto|].
    destruct (lw_orc w) as [|[k|] o]; injection 1 as <- _; cbn; eauto.
  Qed.
  Lemma sr_repeat_prefix max seq : forall k w w' e, sr_repeat max k w seq = (w', e) -> exists s, lw_out w' = lw_out w ++ s.
  Proof.
    induction k as [|k IH]; cbn [sr_repeat]; intros w w' e H; [injection H as <- _; exists []; rewrite app_nil_r; auto|].
    destruct (lw_write max w seq) as [w1 [e1|]] eqn:El; apply lw_write_prefix in El; destruct El as (s & Hs).
    - injection H as <- _. eauto.
    - apply IH in H. destruct H as (s' & ->). exists (s ++ s'). rewrite Hs, app_assoc. reflexivity.
  Qed.
  Lemma sr_loop_prefix max : forall fuel r old w w' x, sr_loop fuel max r old w = (w', x) -> exists s, lw_out w' = lw_out w ++ s.
  Proof.
    induction fuel as [|fuel IH]; cbn [Misc.sr_loop]; intros r old w w' x H; destruct (lw_c w <? max) eqn:E;
      try (injection H as <- <-; exists []; rewrite app_nil_r; reflexivity).
    destruct (sr_pick R intn r old) as [[r1 old1] seq]. destruct (intn r1 24) as [r2 k].
    destruct (sr_repeat max (Z.to_nat k) w seq) as [w1 [e|]] eqn:Er; apply sr_repeat_prefix in Er; destruct Er as (s & Hs).
    - injection H as <- <-. eauto.
    - apply IH in H. destruct H as (s' & ->). exists (s ++ s'). rewrite Hs, app_assoc. reflexivity.
  Qed.
  Lemma sr_loop_sim n m : 0 <= n <= m -> forall fuel r old v w fuel' v' w', lw_sim n m v w ->
    sr_loop fuel n r old v = (v', Ok tt) -> sr_loop fuel' m r old w = (w', Ok tt) -> lw_out v' = firstn (Z.to_nat n) (lw_out w').
  Proof.
    intros Hnm. induction fuel as [|fuel IH]; intros r old v w fuel' v' w' Hs Hv Hw.
    - cbn [Misc.sr_loop] in Hv. destruct (lw_c v <? n) eqn:E; [discriminate|]. injection Hv as <-.
      apply sr_loop_prefix in Hw. destruct Hw as (s & ->). destruct Hs as (_ & _ & [O1 O2] & [P1 P2] & Hout).
      specialize (O2 ltac:(lia)). unfold zlen in *. rewrite Hout, firstn_length in O1. rewrite firstn_app.
      replace (Z.to_nat n - length (lw_out w))%nat with 0%nat by lia. cbn. rewrite app_nil_r. exact Hout.
    - cbn [Misc.sr_loop] in Hv. destruct (lw_c v <? n) eqn:E.
      + destruct fuel' as [|fuel']; cbn [Misc.sr_loop] in Hw.
        { destruct Hs as (_ & _ & [O1 O2] & [P1 P2] & Hout). unfold zlen in *. rewrite Hout, firstn_length in O1.
          destruct (lw_c w <? m) eqn:E2; [discriminate|]. lia. }
        destruct (lw_c w <? m) eqn:E2.
        2:{ destruct Hs as (_ & _ & [O1 O2] & [P1 P2] & Hout). unfold zlen in *. rewrite Hout, firstn_length in O1. lia. }
        destruct (sr_pick R intn r old) as [[r1 old1] seq]. destruct (intn r1 24) as [r2 k].
        destruct (sr_sim_repeat n m seq Hnm (Z.to_nat k) v w Hs) as (v1 & w1 & Ev & Ew & Hs').
        rewrite Ev in Hv. rewrite Ew in Hw. eapply IH; eauto.
      + injection Hv as <-.
        apply sr_loop_prefix in Hw. destruct Hw as (s & ->). destruct Hs as (_ & _ & [O1 O2] & [P1 P2] & Hout).
        specialize (O2 ltac:(lia)). unfold zlen in *. rewrite Hout, firstn_length in O1. rewrite firstn_app.
        replace (Z.to_nat n - length (lw_out w))%nat with 0%nat by lia. cbn. rewrite app_nil_r. exact Hout.
  Qed.
  Theorem C54_prefix fuel fuel' seed n m out out' : 0 <= n <= m ->
    sr_bytes R intn fuel seed n = Ok out -> sr_bytes R intn fuel' seed m = Ok out' ->
    zlen out = n /\ zlen out' = m /\ out = firstn (Z.to_nat n) out'.
  Proof.
    intros Hnm Hn Hm. unfold sr_bytes in *.
    assert (Hno : forall f max r old w, 0 <= max -> lw_orc w = [] -> lw_ok max w -> forall w' e, sr_loop f max r old w <> (w', Err e)).
    { induction f as [|f IH]; cbn [Misc.sr_loop]; intros max r old w Hmax Ho Hw w' e; destruct (lw_c w <? max) eqn:E; try discriminate.
      destruct (sr_pick R intn r old) as [[r1 old1] seq]. destruct (intn r1 24) as [r2 k].
      destruct (sr_sim_repeat max max seq ltac:(lia) (Z.to_nat k) w w) as (v1 & w1 & -> & _ & Hs).
      { unfold lw_sim. splits; auto; try (unfold lw_ok in *; tauto). rewrite firstn_all2; [reflexivity|]. destruct Hw as [H1 H2]. unfold zlen in *. lia. }
      apply IH; auto; apply Hs. }
    assert (Hi : forall max, 0 <= max -> lw_ok max (MkLw [] [] 0)) by (intros max Hx; split; cbn; auto).
    destruct (sr_write fuel seed n []) as [v xv] eqn:Ev. destruct (sr_write fuel' seed m []) as [w xw] eqn:Ew.
    assert (Hov : xv = Ok tt).
    { destruct xv as [[]|e| |]; auto; try discriminate. exfalso. eapply Hno; [| |apply Hi|exact Ev]; auto; lia. }
    assert (How : xw = Ok tt).
    { destruct xw as [[]|e| |]; auto; try discriminate. exfalso. eapply Hno; [| |apply Hi|exact Ew]; auto; lia. }
    subst xv xw. injection Hn as <-. injection Hm as <-.
    destruct (C54_exact_length _ _ _ _ _ _ Ev ltac:(lia)) as [_ L1]. destruct (C54_exact_length _ _ _ _ _ _ Ew ltac:(lia)) as [_ L2].
    splits; auto. unfold Misc.sr_write in *. eapply (sr_loop_sim n m Hnm); [|exact Ev|exact Ew].
    unfold lw_sim. splits; auto; try (apply Hi; lia). cbn. destruct (Z.to_nat n); reflexivity.
  Qed.
End SR.
(** Not vacuous: with the random numbers 80 + i mod 7 (cut to the range asked for). *)
Definition ex_intn (r : Z) (n : Z) : Z * Z := (r + 1, (80 + r mod 7) mod n).
Example C54_example : sr_bytes Z ex_intn 50 0 20 = Ok (firstn 20 (match sr_bytes Z ex_intn 50 0 40 with Ok b => b | _ => [] end)) /\
  match sr_bytes Z ex_intn 50 0 40 with Ok b => zlen b = 40 | _ => False end.
Proof. split; vm_compute; reflexivity. Qed.
