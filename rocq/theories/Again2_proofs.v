(** Again2_proofs.v -- stopping and resuming comes to an end: tar. *)
From Verif Require Import Base Base_proofs Source Contract Seek Decomp CodecSpec Drive SpoilSpec Stack_proofs Copier Sink SinkSpec Settle_proofs
  Zip ZipSpec Zip_proofs Zip2_proofs Tar TarSpec TarRead_proofs Tar_proofs Tar2_proofs Again Again_proofs.
From Coq Require Import Sorted.

Section TarAgain.
  Context (pol : bool) (data : bytes) (start size : Z) (k0 : stk) (D : bytes) (tm : gerr) (F : tfmt) (N : nat).
  Context (ms : list tmember) (ok : bool).
  Context {SK : sink} (L : sink_laws SK) (view0 : kl_loc L -> option node).
  Notation S := (stk_source k0).
  Context (LL : laws S D tm) (SV : saver (s_ck S) tstate).
  Hypothesis Hwf : forall rs, rs_of data rs -> stk_flag pol (rs_separate rs) -> lw_wf LL (stk_new k0 rs start size).
  Hypothesis Hqt : forall rs, rs_of data rs -> lw_quiet LL (stk_new k0 rs start size).
  Hypothesis Hgd : forall rs, rs_of data rs -> rs_good rs -> lw_clean LL (stk_new k0 rs start size).
  Hypothesis HSp : forall c c', lw_ck LL c -> spoilt k0 c c' -> lands LL (Some c') 0 (ck_off c).
  Hypothesis Hvalid : storable L (titems ms).
  Hypothesis Hlay : tlayout F D tm N 0 0 ms ok.
  Hypothesis Hlate : lw_late LL = false.
  Notation tgood := (tgood S D tm LL (spoilt k0) ms SK L view0).

  Definition tcok (st : k_st SK) (c : option (teck S)) : Prop := match c with None => True | Some ck => tgood st ck end.
  Definition tcrank (c : option (teck S)) : nat := match c with None => 0%nat | Some ck => tmeas S ck end.

  Lemma tcok_le st c : tcok st c -> (tcrank c <= length D)%nat.
  Proof.
    destruct c as [ck|]; [|cbn; lia]. intros ((i & m & e & o & _ & _ & _ & _ & _ & _ & Hd & _ & sc0 & Hc & Ho & _) & _).
    cbn [tcrank]. unfold tmeas. rewrite Hd. cbn [sr_off sr_in]. pose proof (lw_ck_len _ _ _ LL _ Hc). unfold zlen in *. lia.
  Qed.

  Lemma tstep c rs fuel st v out : rs_ok pol data rs ->
    kl_inv L st -> outside L (titems ms) view0 st -> tcok st c ->
    out = tar_resume SK F S SV (tsrc start size k0 rs) fuel c st v ->
    kl_inv L (to_sink _ _ _ out) /\ outside L (titems ms) view0 (to_sink _ _ _ out) /\
    (to_log _ _ _ out <> [] -> tcok (to_sink _ _ _ out) (kept c (to_log _ _ _ out)) /\ (tcrank c < tcrank (kept c (to_log _ _ _ out)))%nat) /\
    (to_log _ _ _ out = [] -> tcok (to_sink _ _ _ out) c) /\
    (forall l, to_res _ _ _ out = Ok l -> l = tfiles L ms /\ ok = true /\ extracted L (titems ms) view0 (to_sink _ _ _ out)) /\
    to_res _ _ _ out <> Panic /\
    (rs_good rs -> kl_clean L st -> saver_noerr SV -> tm = EEof -> ok = true -> tsound L ms -> (lw_bound LL + N + length ms + 2 < fuel)%nat ->
     rgoes S SK L SV out).
  Proof.
    intros [Hr1 Hr2] Hi Ho Hc Hout.
    assert (H : exists q0, q0 = Z.of_nat (tcrank c) /\
      RO S D tm LL (spoilt k0) ok ms SK L SV view0 (match c with Some ck => [ck] | None => [] end) q0 out /\
      (rlive S D tm LL N ok ms SK L SV (stk_new k0 rs start size) st fuel -> rgoes S SK L SV out)).
    { exists (Z.of_nat (tcrank c)). split; [reflexivity|]. destruct c as [ck|].
      - apply (resume_at S D tm LL (spoilt k0) F N ok ms SK L SV view0 [ck] (Z.of_nat (tcrank (Some ck))) Hvalid Hlay Hlate HSp ck [] _ fuel st v out
          eq_refl eq_refl (Hwf rs Hr1 Hr2) (Hqt rs Hr1) Hi Ho); auto; repeat constructor.
      - exact (resume_fresh S D tm LL (spoilt k0) F N ok ms SK L SV view0 [] 0 Hvalid Hlay Hlate None _ fuel st v out
          eq_refl eq_refl eq_refl (Hwf rs Hr1 Hr2) (Hqt rs Hr1) Hi Ho Hout). }
    destruct H as (q0 & Hq & [R1 R2 R3 R4 R5 R6 R7 R8 _ R9] & HL).
    splits; auto.
    - intros Hne. destruct (kept_in c _ Hne) as (c1 & s1 & l1 & K1 & K2 & K3). rewrite K1. split.
      + rewrite Forall_forall in R3. apply R3. apply in_or_app. left. rewrite <- in_rev. exact (in_map fst _ (c1, s1) K2).
      + rewrite Forall_forall in R9. specialize (R9 _ K2). rewrite Hq in R9. cbn [fst] in R9. apply Nat2Z.inj_lt. exact R9.
    - intros Hnil. destruct c as [ck|]; [|exact Logic.I]. rewrite Hnil in R3. inversion R3; assumption.
    - intros l Hl. rewrite Hl in R8. destruct R8 as (Hs & Hk & -> & _). splits; auto. apply settled_extracted. exact Hs.
    - intros Hl. rewrite Hl in R8. exact R8.
    - intros G1 G2 G3 G4 G5 G6 G7. apply HL. unfold rlive. splits; auto.
  Qed.

  Lemma tar_again_safe rs fuel : (forall k, rs_ok pol data (rs k)) ->
    forall left k c st v k' out,
    kl_inv L st -> outside L (titems ms) view0 st -> tcok st c ->
    tar_again SK F S SV (fun k => tsrc start size k0 (rs k)) fuel left k c st v = Some (k', out) ->
    (forall l, to_res _ _ _ out = Ok l -> l = tfiles L ms /\ ok = true /\ extracted L (titems ms) view0 (to_sink _ _ _ out)) /\
    to_res _ _ _ out <> Panic.
  Proof.
    intros Hio. induction left as [|left IH]; intros k c st v k' out Hi Ho Hc; cbn [tar_again]; cbv zeta;
      destruct (tstep c (rs k) fuel st v _ (Hio k) Hi Ho Hc eq_refl) as (H1 & H2 & H3 & H4 & H5 & H6 & _);
      set (o := tar_resume SK F S SV (tsrc start size k0 (rs k)) fuel c st v) in *;
      destruct (to_res SK S SV o) as [l|[]| |] eqn:Hres; try discriminate;
      try (injection 1 as <- <-; rewrite Hres; split; [exact H5|discriminate]); try (exfalso; exact (H6 eq_refl)).
    apply IH; auto.
    destruct (to_log _ _ _ o) as [|x log] eqn:Hlog; [exact (H4 eq_refl)|].
    apply H3. discriminate.
  Qed.

  Lemma tar_again_ends rs fuel : (forall k, rs_ok pol data (rs k)) -> (forall k, rs_good (rs k)) ->
    saver_noerr SV -> tm = EEof -> ok = true -> tsound L ms -> (lw_bound LL + N + length ms + 2 < fuel)%nat ->
    forall left k c st v,
    kl_inv L st -> outside L (titems ms) view0 st -> kl_clean L st -> tcok st c -> (length D <= tcrank c + left)%nat ->
    exists k' out, tar_again SK F S SV (fun k => tsrc start size k0 (rs k)) fuel left k c st v = Some (k', out) /\
      (tcrank c + k' <= length D + k)%nat /\ (saver_goes_on SV -> k' = k) /\ exists l, to_res _ _ _ out = Ok l.
  Proof.
    intros Hio Hg Hne Htm Hok Hsd Hf.
    induction left as [|left IH]; intros k c st v Hi Ho Hcl Hc Hle; cbn [tar_again]; cbv zeta;
      destruct (tstep c (rs k) fuel st v _ (Hio k) Hi Ho Hc eq_refl) as (H1 & H2 & H3 & H4 & H5 & H6 & H7);
      set (o := tar_resume SK F S SV (tsrc start size k0 (rs k)) fuel c st v) in *;
      destruct (H7 (Hg k) Hcl Hne Htm Hok Hsd Hf) as [[(l & Hl)|(Hs & Hres & Hlog)] Hcl'];
      try (rewrite Hl; exists k, o; splits; eauto; pose proof (tcok_le st c Hc); lia);
      destruct (H3 Hlog) as (Hc' & Hlt); rewrite Hres.
    - exfalso. pose proof (tcok_le _ _ Hc'). lia.
    - destruct (IH (Datatypes.S k) _ _ (to_sv _ _ _ o) H1 H2 Hcl' Hc' ltac:(lia)) as (k' & out & E1 & E2 & E3 & E4).
      exists k', out. splits; auto; [lia|]. intros Hgo. contradiction.
  Qed.
End TarAgain.
