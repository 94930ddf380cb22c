(** Props_later_tar.v -- property C72 for tar. *)
From Verif Require Import Base Base_proofs Source Contract Seek Decomp CodecSpec Drive SpoilSpec Stack_proofs Copier Sink SinkSpec Zip ZipSpec
  Settle_proofs Zip_proofs Zip2_proofs Zip3_proofs Props_later LaterSpec Tar TarSpec TarRead_proofs Tar_proofs Tar2_proofs ExCodec ExSink ExTar Props_tar.
From Coq Require Import Sorted QArith.
Open Scope Z_scope.

Lemma jx_mono ms i i' : (i <= i')%nat -> (jx ms i <= jx ms i')%nat.
Proof.
  intros H. unfold jx. rewrite <- (firstn_skipn i (firstn i' ms)). rewrite firstn_firstn. replace (Nat.min i i') with i by lia.
  rewrite titems_app, app_length. lia.
Qed.
Lemma jx_lt ms i m e i' : nth_error ms i = Some m -> tm_entry m = Some e -> (i < i')%nat -> (jx ms i < jx ms i')%nat.
Proof.
  intros Hm He H. assert (H1 : (jx ms (Datatypes.S i) <= jx ms i')%nat) by (apply jx_mono; lia).
  rewrite (jx_S ms i m Hm) in H1. unfold tm_item in H1. rewrite He in H1. cbn in H1. lia.
Qed.

Section Tar.
  Context (pol : bool) (data : bytes) (start size : Z) (k : stk) (D : bytes) (tm : gerr) (F : tfmt) (N : nat).
  Context (ms : list tmember) (ok : bool) (SK : sink) (L : sink_laws SK).
  Notation S := (stk_source k).
  Notation trun := (trun pol data start size k F L).
  Context (HA : tarchive pol data start size k D tm F N ms ok L).

  (** C72, tar. The checkpoints given to Save in one run, in that order, do not go back;
      and those of a run from a checkpoint are past that one (unless the sink ignores the entry, so that nothing is written). *)
  Theorem C72_tar_checkpoints_advance st0 SV c rs fuel st out :
    kl_inv L st0 -> trun st0 ms SV c rs fuel st out ->
    StronglySorted not_before (map fst (to_log _ _ _ out)) /\
    (forall ck, c = Some ck -> ec_data ck <> None -> forall c1 s e, In (c1, s) (to_log _ _ _ out) ->
       not_before ck c1 /\ (ec_entry c1 = Some e -> kl_of L e <> None -> past ck c1)).
  Proof.
    intros Hi Hrun.
    destruct (ta_laws _ _ _ _ _ _ _ _ _ _ _ _ HA) as (LL & Hlate & Hwf & _ & Hqt & HSp).
    pose proof (ta_items _ _ _ _ _ _ _ _ _ _ _ _ HA) as Hv.
    pose proof (ta_layout _ _ _ _ _ _ _ _ _ _ _ _ HA) as Hlay.
    destruct (trun_ok pol data start size k D tm F N ms ok L st0 LL Hwf Hqt HSp Hv Hlay Hlate Hi SV c rs fuel st out Hrun) as (prior & q0 & [_ _ R1 R2 R3 _ _ _ _ R4] & _ & Hp).
    set (P := fun cc : teck S => exists i m e o, nth_error ms i = Some m /\ tm_entry m = Some e /\ ec_index cc = Z.of_nat i /\
      ec_entry cc = Some (set_woff e (Z.of_nat (W SK L e o))) /\ tmeas S cc = (tm_pos m + o)%nat).
    assert (Hshape : forall st cc, tgood S D tm LL (spoilt k) ms SK L (kl_view L st0) st cc -> P cc).
    { intros st1 cc ((i & m & e & o & H1 & H2 & H3 & H4 & H5 & H6 & (H7 & _)) & _). exists i, m, e, o. splits; auto.
      unfold tmeas. rewrite H7. unfold sr_in. cbn. lia. }
    assert (HP : Forall P (map fst (to_log _ _ _ out))).
    { apply Forall_map. eapply Forall_impl; [|exact R3]. intros [cc s] [G _ _]. exact (Hshape _ _ G). }
    assert (Hle : forall a b, P a -> P b -> ple (cpos S ms a) (cpos S ms b) -> not_before a b).
    { intros a b (i & m & e & o & A1 & A2 & A3 & A4 & A5) (i' & m' & e' & o' & B1 & B2 & B3 & B4 & B5).
      unfold ple, cpos, tck_woff, not_before, wrote. rewrite A3, A4, B3, B4, !Nat2Z.id. cbn. rewrite !Nat2Z.id.
      intros Hj. destruct (Nat.lt_trichotomy i i') as [Hlt|[E|Hlt]]; [left; lia| |].
      - subst i'. rewrite A1 in B1. injection B1 as <-. rewrite A2 in B2. injection B2 as <-. right. lia.
      - pose proof (jx_lt ms i' m' e' i B1 B2 Hlt). lia. }
    split.
    - apply (sorted_impl (fun a b => ple (cpos S ms a) (cpos S ms b)) not_before P); auto.
      rewrite <- (rev_involutive (map fst (to_log _ _ _ out))). apply sorted_rev. exact (sorted_app_l _ _ _ R2).
    - intros ck Hc Hd c1 s e Hin.
      destruct Hp as [[Hp|(ck' & Hp & Hd')]|(ck' & earlier & Hp & Hpr & Hq & Hg)]; [congruence|congruence|].
      rewrite Hc in Hp. injection Hp as <-. pose proof (Hshape _ _ Hg) as Pck.
      rewrite Forall_forall in HP. pose proof (HP c1 (in_map fst _ (c1, s) Hin)) as P1.
      assert (Hple : ple (cpos S ms ck) (cpos S ms c1)).
      { rewrite Hpr in R2. clear -R2 Hin. apply (in_map fst) in Hin. cbn [fst] in Hin. rewrite in_rev in Hin. revert Hin R2.
        generalize (rev (map fst (to_log _ _ _ out))). induction l as [|a l IH]; intros Hin H; [contradiction|]. cbn [app] in H. inversion H as [|? ? H1 H2]; subst.
        destruct Hin as [->|Hin]; [|auto]. rewrite Forall_forall in H2. apply H2. apply in_or_app. right. left. reflexivity. }
      pose proof (Hle _ _ Pck P1 Hple) as Hnb. split; [exact Hnb|]. intros He Hof.
      rewrite Forall_forall in R4. specialize (R4 _ Hin). cbn [fst] in R4. rewrite Hq in R4.
      destruct Pck as (i & m & e1 & o & A1 & A2 & A3 & A4 & A5). destruct P1 as (i' & m' & e' & o' & B1 & B2 & B3 & B4 & B5).
      destruct Hnb as [Hnb|[Hnb _]]; [left; exact Hnb|]. right. split; [exact Hnb|].
      rewrite A3, B3 in Hnb. apply Nat2Z.inj in Hnb. subst i'. rewrite A1 in B1. injection B1 as <-. rewrite A2 in B2. injection B2 as <-.
      rewrite B4 in He. injection He as <-. rewrite kl_of_woff in Hof.
      unfold wrote. rewrite A4, B4. cbn [en_woff set_woff]. rewrite A5, B5 in R4. unfold W. destruct (kl_of L e1); [lia|contradiction].
  Qed.
End Tar.

(** Two files, compressed as in ExTar.v; a consumer that saves whenever it can, from the beginning and from the first checkpoint. *)
Definition el_in : bytes := et_pack "fb8abcdpfc8efghpeee" "E".
Definition el_D : bytes := s2b "ffbb88aabbccddppffcc88eeffgghhppeeeeee".
Definition el_m0 := MkTm (MkTh (s2b "b") 8 420 TfReg [] 8 2) 6 (s2b "aabbccdd").
Definition el_m1 := MkTm (MkTh (s2b "c") 8 420 TfReg [] 8 2) 22 (s2b "eeffgghh").
Definition el_ms := [el_m0; el_m1].
Lemma el_den : stk_den false el_in 0 40 et_k el_D EEof (200 + 38) true true false.
Proof.
  unfold et_k.
  refine (DenDec false el_in 0 40 (ex_codec false false) gzip_cfg 300 KSeek el_in EEof 40 false false 200 el_D EEof true
    _ _ _ _ _ _ _ _ _); try reflexivity; try discriminate; try lia.
  - exact (DenSeek false el_in 0 40 ltac:(lia) ltac:(lia) ltac:(unfold two63; lia)).
  - apply ex_saves_ok.
  - right. vm_compute. splits; try discriminate; exact Logic.I.
  - intros _. split; [reflexivity|]. vm_compute. splits; try reflexivity; exact Logic.I.
Qed.
Lemma el_archive : tarchive false el_in 0 40 et_k el_D EEof et_fmt 5 el_ms true map_laws.
Proof.
  split; [do 3 eexists; exact el_den| |repeat constructor]. unfold el_ms.
  apply (TlMem et_fmt el_D EEof 5 0 0 (tm_hdr el_m0) 6); [reflexivity|apply Nat.leb_le; reflexivity|].
  apply (TlMem et_fmt el_D EEof 5 14 2 (tm_hdr el_m1) 22); [reflexivity|apply Nat.leb_le; reflexivity|].
  apply (TlEnd et_fmt el_D EEof 5 30 2 38). reflexivity.
Qed.
Definition et_always {CK} : saver CK tstate := MkSaver unit (fun v _ => (v, true)) (fun v _ => (v, inl false)).
Definition el_rs : rstate := MkRs el_in 0 [] [].
Notation el_tar SK c st := (tar_resume SK et_fmt (stk_source et_k) et_always (tsrc 0 40 et_k el_rs) 300 c st tt).
Definition el_tall := el_tar (crashing map_sink) None (map_empty, None).
Definition el_tck : option (teck (stk_source et_k)) := hd_error (map fst (to_log _ _ _ el_tall)).
Definition el_tmore := el_tar map_sink el_tck (fst (to_sink _ _ _ el_tall)).
Lemma el_rs_ok : rs_ok false el_in el_rs. Proof. split; [reflexivity|discriminate]. Qed.
Lemma el_tlife : tlife false el_in 0 40 et_k et_fmt map_laws map_empty el_ms (fst (to_sink _ _ _ el_tall)) (rev (map fst (to_log _ _ _ el_tall))).
Proof. eapply TfFresh; [apply TfStart|exact el_rs_ok|left; reflexivity|reflexivity]. Qed.
Lemma el_tnext : exists c rest, map fst (to_log _ _ _ el_tall) = c :: rest.
Proof.
  assert (H : map (fun cs => ec_index (fst cs)) (to_log _ _ _ el_tall) <> []) by (vm_compute; discriminate).
  destruct (to_log _ _ _ el_tall) as [|[c s] l]; [contradiction|]. cbn. eauto.
Qed.
Lemma el_trun : trun false el_in 0 40 et_k et_fmt map_laws map_empty el_ms et_always el_tck el_rs 300 (fst (to_sink _ _ _ el_tall)) el_tmore.
Proof.
  destruct el_tnext as (c & rest & Hlog). pose proof el_tlife as Hl. unfold el_tmore, el_tck. rewrite Hlog in *. cbn [rev hd_error] in *.
  exact (TrResume false el_in 0 40 et_k et_fmt map_laws map_empty el_ms et_always _ (rev rest) c [] el_rs 300 tt _ Hl el_rs_ok eq_refl).
Qed.
Example C72_tar_example :
  (map (fun cs => (ec_index (fst cs), wrote (fst cs))) (to_log _ _ _ el_tall), option_map (fun c => (ec_index c, wrote c)) el_tck,
   map (fun cs => (ec_index (fst cs), wrote (fst cs))) (to_log _ _ _ el_tmore)) =
  ([(0, 4); (0, 6); (1, 4); (1, 6)], Some (0, 4), [(1, 4); (1, 6)]).
Proof. vm_compute. reflexivity. Qed.
