(** Tar2_proofs.v -- lives and runs of tar extractions. *)
From Verif Require Import Base Base_proofs Source Contract Seek Decomp CodecSpec Drive SpoilSpec Stack_proofs Copier Sink SinkSpec LossSpec Settle_proofs Loss_proofs
  Zip ZipSpec Zip_proofs Zip2_proofs Tar TarSpec TarRead_proofs Tar_proofs.
From Coq Require Import Sorted.

Section Lives.
  Context (pol : bool) (data : bytes) (start size : Z) (k : stk) (D : bytes) (tm : gerr) (F : tfmt) (N : nat).
  Context (ms : list tmember) (ok : bool).
  Context {SK : sink} (L : sink_laws SK) (st0 : k_st SK).
  Notation S := (stk_source k).
  Context (LL : laws S D tm).
  Hypothesis Hwf : forall rs, rs_of data rs -> stk_flag pol (rs_separate rs) -> lw_wf LL (stk_new k rs start size).
  Hypothesis Hqt : forall rs, rs_of data rs -> lw_quiet LL (stk_new k rs start size).
  Hypothesis HSp : forall c c', lw_ck LL c -> spoilt k c c' -> lands LL (Some c') 0 (ck_off c).
  Hypothesis Hvalid : storable L (titems ms).
  Hypothesis Hlay : tlayout F D tm N 0 0 ms ok.
  Hypothesis Hlate : lw_late LL = false.
  Hypothesis Hinv0 : kl_inv L st0.
  Notation CL := (crash_laws L).
  Notation tgoodc := (fun s => tgood S D tm LL (spoilt k) ms (crashing SK) CL (kl_view L st0) (s, None)).
  Notation tgood := (tgood S D tm LL (spoilt k) ms SK L (kl_view L st0)).
  Notation csorted := (csorted S ms).
  Notation cpos := (cpos S ms).

  Lemma tgood_views (st st' : k_st SK) c : (forall l, kl_view L st' l = kl_view L st l) -> tgood st c -> tgood st' c.
  Proof.
    intros Hv (H1 & H2 & H3). split; [exact H1|]. split.
    - eapply settled_views; eauto.
    - intros e D0 l E1 E2 E3 E4. rewrite Hv. exact (H3 e D0 l E1 E2 E3 E4).
  Qed.
  Lemma csorted_skip later c earlier : csorted (later ++ c :: earlier) -> csorted (c :: earlier).
  Proof. induction later as [|a l IH]; cbn; [auto|]. intros H. inversion H; subst. auto. Qed.

  Lemma no_point_ok c : no_point k c -> tar_point S c = None.
  Proof. intros [->|(ck & -> & Hd)]; [reflexivity|]. cbn. rewrite Hd. reflexivity. Qed.

  Lemma in_step_W c' i (m : tmember) e o o0 :
    in_step k L ms c' -> nth_error ms i = Some m -> ec_index c' = Z.of_nat i ->
    ec_entry c' = Some (set_woff e (Z.of_nat (W SK L e o))) -> saved S D tm LL (spoilt k) ms SK L i m o0 c' -> W SK L e o = W SK L e o0.
  Proof.
    intros (m' & e' & l & s & H1 & H2 & H3 & H4) Hm Hi He (Hd & _).
    rewrite Hi, Nat2Z.id, Hm in H1. injection H1 as <-. rewrite He in H2. injection H2 as <-.
    rewrite Hd in H3. injection H3 as _ <-. rewrite kl_of_woff in H4. cbn [sr_off sr_in en_woff set_woff] in H4.
    unfold W in *. destruct (kl_of L e); [|reflexivity]. destruct H4 as [H4|H4]; [discriminate|]. lia.
  Qed.

  Lemma tspoilt_pos c c' : tspoilt k c c' -> cpos c' = cpos c.
  Proof. intros (H1 & H2 & _). unfold Tar_proofs.cpos, tck_woff. rewrite H1, H2. reflexivity. Qed.
  Lemma tspoilt_good st c c' : tspoilt k c c' -> tgood st c -> tgood st c'.
  Proof.
    intros Hsp (G1 & G2 & G3). pose proof (tspoilt_pos c c' Hsp) as Hp. destruct Hsp as (H1 & H2 & H3 & H4).
    unfold Tar_proofs.tgood. rewrite Hp. splits; auto.
    destruct G1 as (i & m & e & o & E1 & E2 & E3 & E4 & E5 & E6 & E7 & E8 & sc0 & E9 & E10 & E11).
    exists i, m, e, o. splits; auto; try congruence.
    split; [congruence|]. split; [exact E8|]. exists sc0. splits; auto.
    intros sc Hs. destruct H4 as [H4|(sc1 & sc2 & F1 & F2 & F3)]; [congruence|].
    rewrite F2 in Hs. injection Hs as <-. right. destruct (E11 _ F1) as [-> | F4]; [exact F3|exact (spoilt_trans _ _ _ _ F4 F3)].
  Qed.

  Lemma titems_cut  c : titems (firstn (Z.to_nat (ec_index c)) ms) = firstn (fst (cpos c)) (titems ms).
  Proof.
    cbn [fst Tar_proofs.cpos]. set (i := Z.to_nat (ec_index c)).
    assert (E : titems ms = titems (firstn i ms) ++ titems (skipn i ms)) by (rewrite <- titems_app, firstn_skipn; reflexivity).
    rewrite E. unfold jx. rewrite firstn_app, Nat.sub_diag, firstn_all. cbn [firstn]. rewrite app_nil_r. reflexivity.
  Qed.
  Lemma titems_rest  c : titems (skipn (Z.to_nat (ec_index c)) ms) = skipn (fst (cpos c)) (titems ms).
  Proof.
    cbn [fst Tar_proofs.cpos]. set (i := Z.to_nat (ec_index c)).
    assert (E : titems ms = titems (firstn i ms) ++ titems (skipn i ms)) by (rewrite <- titems_app, firstn_skipn; reflexivity).
    rewrite E. unfold jx. rewrite skipn_app, Nat.sub_diag, skipn_all. reflexivity.
  Qed.

  Lemma tgood_power st st' c c1 :
    loss_spares L (firstn (fst (cpos c)) (titems ms)) (skipn (fst (cpos c)) (titems ms)) (ec_entry c) st st' ->
    ple (cpos c1) (cpos c) -> tgood st c -> tgood st c1 -> tgood st' c1.
  Proof.
    intros Hloss Hp (C1 & C2 & C3) (G1 & G2 & G3). unfold ple in Hp.
    split; [exact G1|]. split.
    - exact (loss_settled L (titems ms) _ _ st st' Hloss (kl_view L st0) (fst (cpos c1)) ltac:(lia) G2).
    - destruct (Nat.lt_ge_cases (fst (cpos c1)) (fst (cpos c))) as [Hlt|Hge].
      + eapply loss_part_done; [exact Hloss|exact Hlt|exact G3].
      + assert (He : fst (cpos c1) = fst (cpos c)) by lia. rewrite He.
        eapply (loss_part_cur L (titems ms)) with (1 := Hloss) (w := snd (cpos c)); [lia| |exact C3].
        intros e nd Hw Hn. destruct C1 as (i & m & e1 & o & E1 & E2 & E3 & E4 & E5 & E6 & _).
        cbn [fst snd Tar_proofs.cpos] in *. unfold tck_woff in *. rewrite E5, Nat2Z.id in Hn. rewrite (item_at ms i m e1 E1 E3) in Hn. injection Hn as <- _.
        rewrite E6 in *. cbn [en_woff set_woff] in *. rewrite Nat2Z.id. reflexivity.
  Qed.

  Lemma life_good st cks : tlife pol data start size k F L st0 ms st cks ->
    kl_inv L st /\ outside L (titems ms) (kl_view L st0) st /\ Forall (tgood st) cks /\ csorted cks.
  Proof.
    induction 1 as [|st st' cks Hl IH Hi Hv|st cks c SV rs fuel v n out Hl IH [Hr1 Hr2] Hnp Hout
      |st later c earlier SV rs fuel v n out kept Hl IH [Hr1 Hr2] Hout Hkept|st later c c' earlier Hl IH Hsp
      |st cks c SV rs fuel v n out c' Hl IH [Hr1 Hr2] Hnp Hout Hobj Hst
      |st st' later c earlier Hl IH Hi Hloss|st st' cks Hl IH Hi Hloss].
    - splits; auto; constructor.
    - destruct IH as (I1 & I2 & I3 & I4). splits; auto.
      + intros l H1 H2. rewrite Hv. auto.
      + eapply Forall_impl; [|exact I3]. intros c. apply tgood_views. exact Hv.
    - destruct IH as (I1 & I2 & I3 & I4).
      destruct (resume_fresh S D tm LL (spoilt k) F N ok ms (crashing SK) CL SV (kl_view L st0) [] 0 Hvalid Hlay Hlate c _ fuel (st, n) v out
        eq_refl eq_refl (no_point_ok c Hnp) (Hwf rs Hr1 Hr2) (Hqt rs Hr1) I1 I2 Hout) as [[R1 R2 R3 R4 _ _ _ _ _] _].
      rewrite app_nil_r in R3, R4. splits; auto.
    - destruct IH as (I1 & I2 & I3 & I4).
      apply Forall_app in I3. destruct I3 as [_ I3]. pose proof (csorted_skip _ _ _ I4) as I6.
      destruct (resume_at S D tm LL (spoilt k) F N ok ms (crashing SK) CL SV (kl_view L st0) (c :: earlier) (Z.of_nat (tmeas S c)) Hvalid Hlay Hlate HSp c earlier _ fuel (st, n) v out
        eq_refl eq_refl (Hwf rs Hr1 Hr2) (Hqt rs Hr1) I1 I2 I3 I6 Hout) as [[R1 R2 R3 R4 _ _ R7 _ _] _].
      assert (Hk : Forall (tgood (fst (to_sink (crashing SK) S SV out))) kept /\
        csorted (kept ++ rev (map fst (to_log (crashing SK) S SV out)) ++ c :: earlier)).
      { destruct kept as [|c' kept]; [split; [constructor|exact R4]|].
        destruct (Hkept c' (or_introl eq_refl)) as (Hk1 & Hk2 & Hk3). rewrite Hk1. clear Hkept Hk1.
        destruct (R7 ltac:(discriminate) c' Hk2) as [Hd|(i & m & e & o & o0 & E1 & E2 & E3 & E4 & E5 & E6 & E7 & E8 & E9)].
        { destruct Hk3 as (m & e & l & s & _ & _ & Hd' & _). congruence. }
        destruct (E9 (in_step_W c' i m e o o0 Hk3 E1 E6 E7 E8)) as [G1 G2].
        split; [constructor; [exact G1|constructor]|]. constructor; [exact R4|exact G2]. }
      destruct Hk as [K1 K2]. splits; auto. apply Forall_app. split; [exact K1|exact R3].
    - destruct IH as (I1 & I2 & I3 & I4). pose proof I3 as I3'.
      apply Forall_app in I3. destruct I3 as [I3a I3b]. pose proof (Forall_inv I3b) as Hc. pose proof (tspoilt_pos c c' Hsp) as Hpos.
      splits; auto.
      + apply Forall_app. split; [exact I3a|]. constructor; [|exact I3b]. exact (tspoilt_good st c c' Hsp Hc).
      + clear - I4 Hpos. induction later as [|a l IH]; cbn in *.
        * constructor; [exact I4|]. rewrite Hpos. constructor; [apply ple_refl|]. inversion I4; subst. assumption.
        * inversion I4 as [|? ? J1 J2]; subst. constructor; [apply IH; exact J1|].
          apply Forall_app in J2. destruct J2 as [J2 J3]. apply Forall_app. split; [exact J2|].
          constructor; [|exact J3]. rewrite Hpos. inversion J3; subst. assumption.
    - destruct IH as (I1 & I2 & I3 & I4).
      destruct (resume_fresh S D tm LL (spoilt k) F N ok ms (crashing SK) CL SV (kl_view L st0) [] 0 Hvalid Hlay Hlate c _ fuel (st, n) v out
        eq_refl eq_refl (no_point_ok c Hnp) (Hwf rs Hr1 Hr2) (Hqt rs Hr1) I1 I2 Hout) as [[R1 R2 R3 R4 _ _ _ _ R7 _] _].
      assert (Hp : tar_point S (to_obj (crashing SK) S SV out) <> None).
      { rewrite Hobj. destruct Hst as (m & e & l & s & _ & _ & Hd & _). cbn. rewrite Hd. discriminate. }
      rewrite app_nil_r in R3, R4, R7.
      destruct (R7 Hp c' Hobj) as [Hd|(i & m & e & o & o0 & E1 & E2 & E3 & E4 & E5 & E6 & E7 & E8 & E9)].
      { destruct Hst as (m & e & l & s & _ & _ & Hd' & _). congruence. }
      destruct (E9 (in_step_W c' i m e o o0 Hst E1 E6 E7 E8)) as [G1 G2]. splits; auto.
      constructor; [exact R4|exact G2].
    - destruct IH as (I1 & I2 & I3 & I4).
      apply Forall_app in I3. destruct I3 as [_ I3]. pose proof (csorted_skip _ _ _ I4) as I6.
      pose proof (Forall_inv I3) as Hc. rewrite titems_cut, titems_rest in Hloss.
      splits; auto.
      + exact (loss_outside L (titems ms) _ _ st st' Hloss (kl_view L st0) I2).
      + inversion I6 as [|? ? _ Hle]; subst. apply Forall_forall. intros c1 Hin.
        assert (Hp : ple (cpos c1) (cpos c)).
        { destruct Hin as [<-|Hin]; [apply ple_refl|]. rewrite Forall_forall in Hle. exact (Hle c1 Hin). }
        rewrite Forall_forall in I3. exact (tgood_power st st' c c1 Hloss Hp Hc (I3 c1 Hin)).
    - destruct IH as (I1 & I2 & I3 & I4). splits; auto; try constructor.
      exact (loss_outside L (titems ms) 0%nat None st st' Hloss (kl_view L st0) I2).
  Qed.

  (** Any run *)
  Lemma trun_ok SV c rs fuel st out : trun pol data start size k F L st0 ms SV c rs fuel st out ->
    exists prior q0, RO S D tm LL (spoilt k) ok ms SK L SV (kl_view L st0) prior q0 out /\
      (rlive S D tm LL N ok ms SK L SV (stk_new k rs start size) st fuel ->
       rgoes S SK L SV out) /\
      (no_point k c \/ exists ck earlier, c = Some ck /\ prior = ck :: earlier /\ q0 = Z.of_nat (tmeas S ck) /\
         tgood st ck).
  Proof.
    destruct 1 as [st cks c rs fuel v out Hl [Hr1 Hr2] Hnp Hout|st later c earlier rs fuel v out Hl [Hr1 Hr2] Hout];
      destruct (life_good _ _ Hl) as (I1 & I2 & I3 & I4).
    - exists [], 0. apply and_assoc. split; [|left; exact Hnp]. exact (resume_fresh S D tm LL (spoilt k) F N ok ms SK L SV (kl_view L st0) [] 0 Hvalid Hlay Hlate c _ fuel st v out
        eq_refl eq_refl (no_point_ok c Hnp) (Hwf rs Hr1 Hr2) (Hqt rs Hr1) I1 I2 Hout).
    - apply Forall_app in I3. destruct I3 as [_ I3]. pose proof (csorted_skip _ _ _ I4) as I6.
      exists (c :: earlier), (Z.of_nat (tmeas S c)). apply and_assoc. split; [|right; exists c, earlier; splits; auto; exact (Forall_inv I3)]. exact (resume_at S D tm LL (spoilt k) F N ok ms SK L SV (kl_view L st0) (c :: earlier) (Z.of_nat (tmeas S c)) Hvalid Hlay Hlate HSp c earlier _ fuel st v out
        eq_refl eq_refl (Hwf rs Hr1 Hr2) (Hqt rs Hr1) I1 I2 I3 I6 Hout).
  Qed.
End Lives.

(** ** From archives *)
Section Archives.
  Context (pol : bool) (data : bytes) (start size : Z) (k : stk) (D : bytes) (tm : gerr) (F : tfmt) (N : nat).
  Context (ms : list tmember) (ok : bool) {SK : sink} (L : sink_laws SK).

  Lemma ta_items : tarchive pol data start size k D tm F N ms ok L -> storable L (titems ms).
  Proof. intros [_ _ H]. exact H. Qed.

  Lemma ta_laws : tarchive pol data start size k D tm F N ms ok L ->
    exists LL : laws (stk_source k) D tm, lw_late LL = false /\
      (forall rs, rs_of data rs -> stk_flag pol (rs_separate rs) -> lw_wf LL (stk_new k rs start size)) /\
      (forall rs, rs_of data rs -> rs_good rs -> lw_clean LL (stk_new k rs start size)) /\
      (forall rs, rs_of data rs -> lw_quiet LL (stk_new k rs start size)) /\
      (forall c c', lw_ck LL c -> spoilt k c c' -> lands LL (Some c') 0 (ck_off c)).
  Proof.
    intros [(b & byt & p & Hden) _ _]. destruct (stk_laws _ _ _ _ _ _ _ _ _ _ _ Hden) as (LL & [F1 F2 F3 F4 F5 F6 F7 F8]).
    exists LL. splits; auto. intros c c' Hc Hs. exact (proj1 (F8 c c' Hc Hs)).
  Qed.

  (** the runs of an archive *)
  Lemma trun_archive : tarchive pol data start size k D tm F N ms ok L ->
    exists LL B, forall st0, kl_inv L st0 -> forall SV c rs fuel st out, trun pol data start size k F L st0 ms SV c rs fuel st out ->
    exists prior q0, RO (stk_source k) D tm LL (spoilt k) ok ms SK L SV (kl_view L st0) prior q0 out /\
      (rs_good rs -> kl_clean L st -> saver_goes_on SV -> tm = EEof -> ok = true -> tsound L ms -> (B < fuel)%nat ->
       (exists l, to_res _ _ _ out = Ok l) /\ kl_clean L (to_sink _ _ _ out)).
  Proof.
    intros HA. destruct (ta_laws HA) as (LL & H1 & H2 & H3 & H4 & H5). exists LL, (lw_bound LL + N + length ms + 2)%nat.
    intros st0 Hi SV c rs fuel st out Hrun.
    destruct (trun_ok pol data start size k D tm F N ms ok L st0 LL H2 H4 H5 (ta_items HA) (ta_layout _ _ _ _ _ _ _ _ _ _ _ _ HA) H1 Hi SV c rs fuel st out Hrun)
      as (prior & q0 & R1 & R2 & _).
    exists prior, q0. split; [exact R1|]. intros Hg Hc Hs Ht Hok Hsd Hf.
    assert (HG : rgoes (stk_source k) SK L SV out); [|destruct HG as [[HG|(HG & _)] HG']; [auto|contradiction]].
    apply R2. unfold rlive. splits; auto; [|exact (goes_on_noerr _ Hs)].
    apply H3; auto. destruct Hrun as [? ? ? ? ? ? ? ? [Hr _]|? ? ? ? ? ? ? ? ? [Hr _]]; exact Hr.
  Qed.
End Archives.
