(** Props_stop2.v -- property C56: the caller's checkpoint object after a tar extraction. *)
From Verif Require Import Base Base_proofs Source Contract Seek Decomp CodecSpec Drive SpoilSpec Stack_proofs Copier Sink SinkSpec NoteSpec Zip ZipSpec
  Settle_proofs Zip2_proofs Zip3_proofs Tar TarSpec TarRead_proofs Tar_proofs Tar2_proofs TarOrder_proofs ExCodec ExSink ExTar Props_tar
  StopSpec Stop_proofs Stop2_proofs Stop3_proofs.
Open Scope Z_scope.

Section Spent.
  Context (SK : sink) (F : tfmt) (k : stk) (SV : saver (s_ck (stk_source k)) tstate).
  Notation S := (stk_source k).
  Definition spendable (c : teck S) : Prop := ec_entry c = None -> ec_data c = None.

  Lemma extract_spent fuel src s e x src' s' x' : tar_extract SK F S SV fuel src s e x = (src', s', x', Ok tt) -> ec_data (t_ck SK S SV x') = None.
  Proof.
    unfold tar_extract. destruct (en_kind e).
    - destruct (k_mkdir SK _ e) as [st' [er|]]; intros [= <- <- <-]; reflexivity.
    - destruct (k_symlink SK _ e _) as [st' [er|]]; intros [= <- <- <-]; reflexivity.
    - destruct (k_getw SK _ e) as [st' [w| | |]]; try discriminate.
      destruct (copier_do _ _ _) as [[[src2 s2] x2] [u|er| |]]; intros [= <- <- <-]; reflexivity.
    - intros [= <- <- <-]. reflexivity.
  Qed.
  Lemma iter_spent fuel src s i x src' s' x' : spendable (t_ck SK S SV x) ->
    tar_iter SK F S SV fuel src s i x = (src', s', x', Ok tt) -> ec_data (t_ck SK S SV x') = None.
  Proof.
    intros Hs. unfold tar_iter. cbv zeta. cbn [ec_entry]. destruct (ec_entry (t_ck SK S SV x)) as [e|] eqn:Ee; [apply extract_spent|].
    destruct (sr_next _ _ _ _ _) as [[src1 s1] [h|er| |]]; try discriminate.
    - destruct (tar_entry_of h) as [e|]; [apply extract_spent|]. intros [= <- <- <-]. cbn. apply Hs. exact Ee.
    - destruct er; try discriminate. intros [= <- <- <-]. cbn. apply Hs. exact Ee.
  Qed.
  Lemma loop_spent fuel : forall lf src s i x x', spendable (t_ck SK S SV x) -> (t_stoperr SK S SV x = None \/ ec_data (t_ck SK S SV x) = None) ->
    tar_loop SK F S SV fuel lf src s i x = (x', Ok tt) -> ec_data (t_ck SK S SV x') = None.
  Proof.
    induction lf as [|lf IH]; intros src s i x x' Hs H; cbn [tar_loop].
    - destruct (t_stoperr SK S SV x); [|discriminate]. intros [= <-]. destruct H as [H|H]; [discriminate|exact H].
    - destruct (t_stoperr SK S SV x); [intros [= <-]; destruct H as [H|H]; [discriminate|exact H]|].
      destruct (tar_iter SK F S SV fuel src s i x) as [[[src1 s1] x1] [[]|er| |]] eqn:Ei; try discriminate.
      pose proof (iter_spent _ _ _ _ _ _ _ _ Hs Ei) as Hd. apply IH; [intros _; exact Hd|right; exact Hd].
  Qed.
  (** the caller's object after a run that began at a checkpoint with an entry *)
  Lemma run_spent fuel src s ck ts st v out : sink_no_stop SK -> saver_no_stop SV -> fmt_no_stop F -> stk_quiet k src ->
    spendable ck -> out = tar_run SK F S SV fuel src s ck ts Some st v ->
    (exists l, to_res _ _ _ out = Ok l) \/ to_res _ _ _ out = Err EStop -> exists ck', to_ck _ _ _ out = Some ck' /\ ec_data ck' = None.
  Proof.
    intros HK HV HF HQ Hs Hout Hres. unfold tar_run in Hout.
    destruct (tar_loop _ _ _ _ _ _ _ _ _ _) as [x' r] eqn:El. subst out. cbn [to_res to_ck] in *.
    exists (t_ck _ _ _ x'). split; [reflexivity|].
    assert (Hr : r <> Err EStop). { eapply loop_quiet; [exact HK|exact HV|exact HF| |exact El]. apply (q_setssc _ _ (stk_is_quiet k)). exact HQ. }
    destruct r as [[]|e| |]; try (destruct Hres as [(l & Hres)|Hres]; discriminate).
    - eapply loop_spent; [| |exact El]; [exact Hs|left; reflexivity].
    - destruct Hres as [(l & Hres)|Hres]; [discriminate|]. injection Hres as Hres. destruct (with_stack_no_stop e ltac:(congruence) Hres).
  Qed.
End Spent.

Section Props.
  Context (pol : bool) (data : bytes) (start size : Z) (k : stk) (D : bytes) (tm : gerr) (F : tfmt) (N : nat).
  Context (ms : list tmember) (ok : bool) (SK : sink) (L : sink_laws SK).
  Notation S := (stk_source k).
  Notation trun := (trun pol data start size k F L).
  Notation tlife := (tlife pol data start size k F L).
  Context (HA : tarchive pol data start size k D tm F N ms ok L).

  Lemma life_spendable st0 st cks c : kl_inv L st0 -> tlife st0 ms st cks -> In c cks -> spendable k c.
  Proof.
    intros Hi Hl Hin. destruct (ta_laws _ _ _ _ _ _ _ _ _ _ _ _ HA) as (LL & Hlate & Hwf & _ & Hqt & HSp).
    destruct (life_good pol data start size k D tm F N ms ok L st0 LL Hwf Hqt HSp (ta_items _ _ _ _ _ _ _ _ _ _ _ _ HA) (ta_layout _ _ _ _ _ _ _ _ _ _ _ _ HA) Hlate Hi _ _ Hl) as (_ & _ & Hg & _).
    rewrite Forall_forall in Hg. destruct (Hg c Hin) as ((i & m & e & o & H1 & H2 & H3 & H4 & H5 & H6 & _) & _).
    intros Hn. congruence.
  Qed.
  Lemma life_point st0 st cks c : kl_inv L st0 -> tlife st0 ms st cks -> In c cks -> tar_point S (Some c) <> None.
  Proof.
    intros Hi Hl Hin. destruct (ta_laws _ _ _ _ _ _ _ _ _ _ _ _ HA) as (LL & Hlate & Hwf & _ & Hqt & HSp).
    destruct (life_good pol data start size k D tm F N ms ok L st0 LL Hwf Hqt HSp (ta_items _ _ _ _ _ _ _ _ _ _ _ _ HA) (ta_layout _ _ _ _ _ _ _ _ _ _ _ _ HA) Hlate Hi _ _ Hl) as (_ & _ & Hg & _).
    rewrite Forall_forall in Hg. destruct (Hg c Hin) as ((i & m & e & o & H1 & H2 & H3 & H4 & H5 & H6 & H7 & _) & _).
    cbn [tar_point]. rewrite H7. discriminate.
  Qed.

  (** C56. Whatever checkpoint was given to a run that ended without error or was
      stopped: the object holds no position any more. *)
  Theorem C56_tar_object_spent st0 SV c rs fuel st out : kl_inv L st0 ->
    sink_no_stop SK -> saver_no_stop SV -> fmt_no_stop F ->
    trun st0 ms SV c rs fuel st out -> (exists l, to_res _ _ _ out = Ok l) \/ to_res _ _ _ out = Err EStop ->
    no_point k (to_ck _ _ _ out).
  Proof.
    intros Hi HK HV HF Hrun Hres. destruct Hrun as [st cks c rs fuel v out Hl Hr Hnp Hout|st later c earlier rs fuel v out Hl Hr Hout].
    - assert (Hc : to_ck _ _ _ out = c); [|rewrite Hc; exact Hnp].
      assert (Hp : tar_point S c = None). { destruct Hnp as [->|(ck & -> & Hd)]; cbn; [reflexivity|rewrite Hd; reflexivity]. }
      rewrite Hout. unfold tar_resume. rewrite Hp. destruct (s_resume _ _ None) as [src1 [o|e| |]]; try reflexivity.
      unfold tar_run. destruct (tar_loop _ _ _ _ _ _ _ _ _ _). reflexivity.
    - right. assert (Hs : spendable k c). { eapply life_spendable; [exact Hi|exact Hl|]. apply in_or_app. right. left. reflexivity. }
      pose proof (stk_new_quiet k rs start size) as HQ. change (stk_new k rs start size) with (tsrc start size k rs) in HQ.
      unfold tar_resume in Hout. destruct (tar_point S (Some c)) as [[[ck ts] s]|] eqn:Hp.
      + assert (ck = c) as ->. { revert Hp. cbn. destruct (ec_data c) as [[[l|] [s'|]]|]; try discriminate. congruence. }
        pose proof (q_resume _ _ (stk_is_quiet k) _ (ec_src c) HQ) as [A B].
        destruct (s_resume S _ (ec_src c)) as [src1 [o|e| |]]; cbn [fst snd] in A, B.
        2-4: subst out; cbn [to_res] in Hres; destruct Hres as [(l & Hres)|Hres]; try discriminate; injection Hres as Hres;
             destruct (with_stack_no_stop e ltac:(congruence) Hres).
        pose proof (discard_quiet _ _ (stk_is_quiet k) drop_cb drop_cb_quiet fuel src1 tt (sr_off s - o) A) as [A2 B2].
        destruct (if _ <? _ then _ else _) as [[src2 u] r2] eqn:Ed.
        assert (A3 : stk_quiet k src2 /\ r2 <> Err EStop).
        { revert Ed. destruct (_ <? _); [|intros [= <- <- <-]; split; [exact A|discriminate]]. intros Ed. rewrite Ed in A2, B2. split; [exact A2|exact B2]. }
        destruct A3 as [A3 B3]. destruct r2 as [o2|e| |].
        2-4: subst out; cbn [to_res] in Hres; destruct Hres as [(l & Hres)|Hres]; try discriminate; injection Hres as Hres;
             destruct (with_stack_no_stop e ltac:(congruence) Hres).
        eapply run_spent; eauto.
      + exfalso. eapply life_point; [exact Hi|exact Hl| |exact Hp]. apply in_or_app. right. left. reflexivity.
  Qed.

  (** ... so a later Resume with that object, if it ends without error, has extracted
      the whole archive again. *)
  Theorem C56_tar_object_restarts st0 SV c rs fuel st out SV2 rs2 fuel2 v2 out2 l : kl_inv L st0 ->
    sink_no_stop SK -> saver_no_stop SV -> fmt_no_stop F ->
    trun st0 ms SV c rs fuel st out -> (exists l, to_res _ _ _ out = Ok l) \/ to_res _ _ _ out = Err EStop ->
    rs_ok pol data rs2 ->
    out2 = tar_resume SK F S SV2 (tsrc start size k rs2) fuel2 (to_ck _ _ _ out) (to_sink _ _ _ out) v2 -> to_res _ _ _ out2 = Ok l ->
    extracted L (titems ms) (kl_view L st0) (to_sink _ _ _ out2) /\ l = tfiles L ms /\ ok = true.
  Proof.
    intros Hi HK HV HF Hrun Hres [Hr1 Hr2] Hout2 Hres2.
    pose proof (C56_tar_object_spent st0 SV c rs fuel st out Hi HK HV HF Hrun Hres) as Hnp.
    destruct (ta_laws _ _ _ _ _ _ _ _ _ _ _ _ HA) as (LL & Hlate & Hwf & _ & Hqt & HSp).
    pose proof (ta_items _ _ _ _ _ _ _ _ _ _ _ _ HA) as Hv.
    pose proof (ta_layout _ _ _ _ _ _ _ _ _ _ _ _ HA) as Hlay.
    destruct (trun_ok pol data start size k D tm F N ms ok L st0 LL Hwf Hqt HSp Hv Hlay Hlate Hi SV c rs fuel st out Hrun) as (prior & q0 & [I1 I2 _ _ _ _ _ _ _] & _).
    destruct (resume_fresh S D tm LL (spoilt k) F N ok ms SK L SV2 (kl_view L st0) [] 0 Hv Hlay Hlate (to_ck _ _ _ out) _ fuel2 _ v2 out2
        eq_refl eq_refl (no_point_ok k (to_ck _ _ _ out) Hnp) (Hwf rs2 Hr1 Hr2) (Hqt rs2 Hr1) I1 I2 Hout2) as [[_ _ _ _ _ _ _ R _] _].
    rewrite Hres2 in R. destruct R as (R1 & R2 & R3 & _). splits; auto. apply settled_extracted. exact R1.
  Qed.
End Props.

(** A case: the checkpoint of a stopped run, resumed; the object is then given to Resume again. *)
Lemma map_no_stop : sink_no_stop map_sink.
Proof. unfold sink_no_stop. splits; intros; try (cbn; discriminate). cbn. destruct (ms_view s _) as [[| |]|]; discriminate. Qed.
Lemma et_saver_no_stop {CK} : saver_no_stop (@et_saver CK).
Proof. intros v c. discriminate. Qed.
Lemma et_fmt_no_stop : fmt_no_stop et_fmt.
Proof.
  intros [n| |d]; cbn; try discriminate. unfold et_hdr.
  do 6 (destruct d as [|? d]; [discriminate|]). destruct d; [|discriminate].
  do 5 (destruct (beqb _ _); [discriminate|]). discriminate.
Qed.
Definition et_third := et_resume map_sink (to_ck _ _ _ et_second) (to_sink _ _ _ et_second) 0%nat.
Lemma et_third_eq : et_third = tar_resume map_sink et_fmt (stk_source et_k) et_saver (tsrc 0 54 et_k et_rs) 300 (to_ck _ _ _ et_second) (to_sink _ _ _ et_second) 0%nat.
Proof. unfold et_third. reflexivity. Qed.
Lemma et_second_ok : exists l, to_res _ _ _ et_second = Ok l.
Proof. apply is_ok. vm_compute. reflexivity. Qed.
Lemma et_third_ok : exists l, to_res _ _ _ et_third = Ok l.
Proof. apply is_ok. vm_compute. reflexivity. Qed.
Lemma et_second_ck : option_map (fun c => ec_index c) (to_ck _ _ _ et_second) = Some 5.
Proof. vm_compute. reflexivity. Qed.
Example C56_example :
  option_map (fun c => ec_index c) (to_ck _ _ _ et_second) = Some 5 /\ no_point et_k (to_ck _ _ _ et_second) /\
  extracted map_laws (titems et_ms) (kl_view map_laws map_empty) (to_sink _ _ _ et_third).
Proof.
  split; [exact et_second_ck|]. destruct et_third_ok as (l & Hl). split.
  - eapply C56_tar_object_spent; [exact et_archive|exact Logic.I|exact map_no_stop|exact et_saver_no_stop|exact et_fmt_no_stop|exact et_trun|left; exact et_second_ok].
  - exact (proj1 (C56_tar_object_restarts false et_in 0 54 et_k et_D EEof et_fmt 5 et_ms true map_sink map_laws et_archive map_empty et_saver et_ck et_rs 300
      (fst (to_sink _ _ _ et_first)) et_second et_saver et_rs 300 0%nat et_third l Logic.I map_no_stop et_saver_no_stop et_fmt_no_stop et_trun (or_introl et_second_ok) et_rs_ok et_third_eq Hl)).
Qed.
