(** Props_kept_tar.v -- property C78 for the tar extractor: a save consumer that
    keeps the checkpoint object it is given instead of a copy. *)
From Verif Require Import Base Base_proofs Source Contract Seek Decomp CodecSpec Drive SpoilSpec Stack_proofs Copier Sink SinkSpec NoteSpec Zip ZipSpec
  Settle_proofs Zip2_proofs Zip3_proofs Tar TarSpec TarRead_proofs Tar_proofs Tar2_proofs TarOrder_proofs ExCodec ExSink ExTar Props_tar
  StopSpec Stop_proofs Stop2_proofs Stop3_proofs Props_stop2.
Open Scope Z_scope.

Section Props.
  Context (pol : bool) (data : bytes) (start size : Z) (k : stk) (D : bytes) (tm : gerr) (F : tfmt) (N : nat).
  Context (ms : list tmember) (ok : bool) (SK : sink) (L : sink_laws SK).
  Notation S := (stk_source k).
  Notation trun := (trun pol data start size k F L).
  Notation tlife := (tlife pol data start size k F L).
  Context (HA : tarchive pol data start size k D tm F N ms ok L).

  (** The object of a run, as far as it was given to Save. *)
  Lemma run_obj_spent SV fuel src s ck ts keep st v out : sink_no_stop SK -> saver_no_stop SV -> fmt_no_stop F -> stk_quiet k src ->
    spendable k ck -> out = tar_run SK F S SV fuel src s ck ts keep st v ->
    (exists l, to_res _ _ _ out = Ok l) \/ to_res _ _ _ out = Err EStop -> exists ck', to_obj _ _ _ out = Some ck' /\ ec_data ck' = None.
  Proof.
    intros HK HV HF HQ Hs Hout Hres.
    destruct (run_spent SK F k SV fuel src s ck ts st v (tar_run SK F S SV fuel src s ck ts Some st v) HK HV HF HQ Hs eq_refl) as (ck' & H1 & H2).
    - subst out. revert Hres. unfold tar_run. destruct (tar_loop _ _ _ _ _ _ _ _ _ _). exact (fun H => H).
    - exists ck'. split; [|exact H2]. subst out. revert H1. unfold tar_run. destruct (tar_loop _ _ _ _ _ _ _ _ _ _). exact (fun H => H).
  Qed.

  (** C78 (tar). After a run that was done or stopped, the object that it passed to
      Save holds no position any more. *)
  Theorem C78_tar_kept_spent_partial st0 SV c rs fuel st out : kl_inv L st0 ->
    sink_no_stop SK -> saver_no_stop SV -> fmt_no_stop F ->
    trun st0 ms SV c rs fuel st out -> (exists l, to_res _ _ _ out = Ok l) \/ to_res _ _ _ out = Err EStop ->
    no_point k (to_obj _ _ _ out).
  Proof.
    intros Hi HK HV HF Hrun Hres. destruct Hrun as [st cks c rs fuel v out Hl Hr Hnp Hout|st later c earlier rs fuel v out Hl Hr Hout].
    - right. assert (Hp : tar_point S c = None). { destruct Hnp as [->|(ck & -> & Hd)]; cbn; [reflexivity|rewrite Hd; reflexivity]. }
      unfold tar_resume in Hout. rewrite Hp in Hout.
      pose proof (stk_new_quiet k rs start size) as HQ. change (stk_new k rs start size) with (tsrc start size k rs) in HQ.
      pose proof (q_resume _ _ (stk_is_quiet k) _ None HQ) as [A B].
      destruct (s_resume S _ None) as [src1 [o|e| |]]; cbn [fst snd] in A, B.
      2-4: subst out; cbn [to_res] in Hres; destruct Hres as [(l & Hres)|Hres]; try discriminate; injection Hres as Hres;
           destruct (with_stack_no_stop e ltac:(congruence) Hres).
      eapply run_obj_spent; [exact HK|exact HV|exact HF|exact A| |exact Hout|exact Hres]. intros _. reflexivity.
    - assert (Ho : to_obj _ _ _ out = to_ck _ _ _ out).
      { assert (tar_point S (Some c) <> None).
        { eapply life_point; [exact HA|exact Hi|exact Hl|]. apply in_or_app. right. left. reflexivity. }
        rewrite Hout. unfold tar_resume. destruct (tar_point S (Some c)) as [[[ck ts] s]|]; [|congruence].
        destruct (s_resume S _ _) as [src1 [o|e| |]]; try reflexivity.
        destruct (if _ <? _ then _ else _) as [[src2 u] [o2|e| |]]; try reflexivity.
        unfold tar_run. destruct (tar_loop _ _ _ _ _ _ _ _ _ _). reflexivity. }
      rewrite Ho. eapply (C56_tar_object_spent pol data start size k D tm F N ms ok SK L HA st0 SV (Some c)); eauto.
      eapply TrResume; eauto.
  Qed.

  (** ... and whatever run it comes from, resuming from the object is right if it
      holds no position, or if no bytes of its entry were written since it was saved. *)
  Theorem C78_tar_kept_object_partial st0 st c SV rs fuel v n out c' SV2 rs2 fuel2 v2 out2 l : kl_inv L st0 ->
    (exists cks, tlife st0 ms st cks /\ (no_point k c \/ exists ck, c = Some ck /\ In ck cks)) -> rs_ok pol data rs ->
    out = tar_resume (crashing SK) F S SV (tsrc start size k rs) fuel c (st, n) v ->
    to_obj _ _ _ out = Some c' -> in_step k L ms c' \/ no_point k (Some c') ->
    rs_ok pol data rs2 ->
    out2 = tar_resume SK F S SV2 (tsrc start size k rs2) fuel2 (Some c') (fst (to_sink _ _ _ out)) v2 -> to_res _ _ _ out2 = Ok l ->
    extracted L (titems ms) (kl_view L st0) (to_sink _ _ _ out2) /\ ok = true.
  Proof.
    intros Hi (cks & Hl & Hc) Hr Hout Hobj Hp Hr2 Hout2 Hres2.
    assert (Hrun2 : trun st0 ms SV2 (Some c') rs2 fuel2 (fst (to_sink _ _ _ out)) out2).
    { assert (Hnp : no_point k (Some c') -> forall cks2, tlife st0 ms (fst (to_sink _ _ _ out)) cks2 -> trun st0 ms SV2 (Some c') rs2 fuel2 (fst (to_sink _ _ _ out)) out2).
      { intros Hn cks2 Hl2. eapply TrFresh; [exact Hl2|exact Hr2|exact Hn|exact Hout2]. }
      destruct Hc as [Hc|(ck & -> & Hin)].
      - destruct Hp as [Hp|Hp].
        + eapply (TrResume _ _ _ _ _ _ _ _ _ _ _ []); [|exact Hr2|exact Hout2]. exact (TfKept _ _ _ _ _ _ _ _ _ _ _ _ _ _ _ _ _ _ _ Hl Hr Hc Hout Hobj Hp).
        + eapply Hnp; [exact Hp|]. exact (TfFresh _ _ _ _ _ _ _ _ _ _ _ _ _ _ _ _ _ _ Hl Hr Hc Hout).
      - apply in_split in Hin. destruct Hin as (later & earlier & ->).
        assert (Ho : to_ck _ _ _ out = Some c').
        { assert (Hne : tar_point S (Some ck) <> None).
          { eapply life_point; [exact HA|exact Hi|exact Hl|]. apply in_or_app. right. left. reflexivity. }
          rewrite <- Hobj, Hout. unfold tar_resume. destruct (tar_point S (Some ck)) as [[[ck1 ts] s]|]; [|congruence].
          destruct (s_resume S _ _) as [src1 [o|e| |]]; try reflexivity.
          destruct (if _ <? _ then _ else _) as [[src2 u] [o2|e| |]]; try reflexivity.
          unfold tar_run. destruct (tar_loop _ _ _ _ _ _ _ _ _ _). reflexivity. }
        destruct Hp as [Hp|Hp].
        + eapply (TrResume _ _ _ _ _ _ _ _ _ _ _ [] c'); [|exact Hr2|exact Hout2].
          refine (TfResume _ _ _ _ _ _ _ _ _ _ _ _ _ _ _ _ _ _ _ [c'] Hl Hr Hout _). intros c0 [<-|[]]. auto.
        + eapply Hnp; [exact Hp|]. refine (TfResume _ _ _ _ _ _ _ _ _ _ _ _ _ _ _ _ _ _ _ [] Hl Hr Hout _). intros c0 []. }
    exact (C45_tar_resume_exact pol data start size k D tm F N ms ok SK L HA st0 SV2 (Some c') rs2 fuel2 _ out2 l Hi Hrun2 Hres2).
  Qed.
End Props.

(** False otherwise: a fresh run saves at 4 of 6 bytes of "b" and is told to go on; a
    write after that fails (ek_fail). The object now has the WriteOffset 6 with the old
    position of the tar reader. *)
Definition ek_run n := et_resume (crashing map_sink) None (map_empty, Some n) 0%nat.
Definition ek_fail := ek_run 6.
Definition ek_retry := et_resume map_sink (to_obj _ _ _ ek_fail) (fst (to_sink _ _ _ ek_fail)) 0%nat.
Lemma ek_fail_io : to_res _ _ _ ek_fail = Err EIO.
Proof. vm_compute. reflexivity. Qed.
Lemma ek_fail_log : map (fun cs => (ec_index (fst cs), option_map en_woff (ec_entry (fst cs)))) (to_log _ _ _ ek_fail) = [(2, Some 4)].
Proof. vm_compute. reflexivity. Qed.
Lemma ek_fail_obj : option_map (fun c => (ec_index c, option_map en_woff (ec_entry c))) (to_obj _ _ _ ek_fail) = Some (2, Some 6).
Proof. vm_compute. reflexivity. Qed.
Lemma ek_retry_ok : exists l, to_res _ _ _ ek_retry = Ok l.
Proof. apply is_ok. vm_compute. reflexivity. Qed.
Lemma ek_retry_view : ms_view (to_sink _ _ _ ek_retry) (s2b "b") = Some (NFile (s2b "aabbcccc")).
Proof. vm_compute. reflexivity. Qed.
Theorem C78_tar_kept_object_refuted :
  to_res _ _ _ ek_fail = Err EIO /\
  map (fun cs => (ec_index (fst cs), option_map en_woff (ec_entry (fst cs)))) (to_log _ _ _ ek_fail) = [(2, Some 4)] /\
  option_map (fun c => (ec_index c, option_map en_woff (ec_entry c))) (to_obj _ _ _ ek_fail) = Some (2, Some 6) /\
  (exists l, to_res _ _ _ ek_retry = Ok l) /\
  ~ extracted map_laws (titems et_ms) (ms_view map_empty) (to_sink _ _ _ ek_retry).
Proof.
  split; [exact ek_fail_io|]. split; [exact ek_fail_log|]. split; [exact ek_fail_obj|]. split; [exact ek_retry_ok|].
  apply et_retry_bad. exact ek_retry_view.
Qed.

(** The good cases do occur: a stopped run, whose object is spent; a run that fails before
    anything is written after the save. *)
Definition ek_stop := et_resume map_sink None map_empty 1%nat.
Lemma ek_stop_run : trun false et_in 0 54 et_k et_fmt map_laws map_empty et_ms et_saver None et_rs 300 map_empty ek_stop.
Proof. exact (TrFresh false et_in 0 54 et_k et_fmt map_laws map_empty et_ms et_saver map_empty [] None et_rs 300 1%nat _ (TfStart _ _ _ _ _ _ _ _ _) et_rs_ok (or_introl eq_refl) eq_refl). Qed.
Lemma ek_stop_res : to_res _ _ _ ek_stop = Err EStop.
Proof. vm_compute. reflexivity. Qed.
Lemma ek_step_obj : option_map (fun c => (ec_index c, option_map en_woff (ec_entry c), match ec_data c with Some (MkTs _ (Some s)) => Some (sr_off s) | _ => None end)) (to_obj _ _ _ (ek_run 5)) = Some (2, Some 4, Some 24).
Proof. vm_compute. reflexivity. Qed.
Lemma ek_step_retry : ms_view (to_sink _ _ _ (et_resume map_sink (to_obj _ _ _ (ek_run 5)) (fst (to_sink _ _ _ (ek_run 5))) 0%nat)) (s2b "b") = Some (NFile (s2b "aabbcc")).
Proof. vm_compute. reflexivity. Qed.
Example C78_tar_example :
  no_point et_k (to_obj _ _ _ ek_stop) /\
  option_map (fun c => (ec_index c, option_map en_woff (ec_entry c), match ec_data c with Some (MkTs _ (Some s)) => Some (sr_off s) | _ => None end)) (to_obj _ _ _ (ek_run 5)) = Some (2, Some 4, Some 24) /\
  Z.of_nat (tm_pos et_m2) + 4 = 24 /\
  ms_view (to_sink _ _ _ (et_resume map_sink (to_obj _ _ _ (ek_run 5)) (fst (to_sink _ _ _ (ek_run 5))) 0%nat)) (s2b "b") = Some (NFile (s2b "aabbcc")).
Proof.
  split; [|split; [exact ek_step_obj|split; [vm_compute; reflexivity|exact ek_step_retry]]].
  eapply C78_tar_kept_spent_partial; [exact et_archive|reflexivity|exact map_no_stop|exact et_saver_no_stop|exact et_fmt_no_stop|exact ek_stop_run|].
  right. exact ek_stop_res.
Qed.
