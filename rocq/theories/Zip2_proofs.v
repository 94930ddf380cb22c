(** Zip2_proofs.v -- lives of zip extractions. *)
From Verif Require Import Base Base_proofs Source Seek Decomp CodecSpec Contract Seek_proofs Decomp_proofs Drive SpoilSpec Stack_proofs
  Copier Sink Zip SinkSpec LossSpec Settle_proofs Loss_proofs ZipSpec Zip_proofs Shallow Shallow_proofs.
From Coq Require Import Sorted.

(** ** A sink in a process that dies is still lawful (if not clean). *)
Section Crash.
  Context {SK : sink} (L : sink_laws SK).
  Notation CS := (crashing SK).

  Definition crash_laws : sink_laws CS.
  Proof.
    refine (MkSinkLaws CS (kl_loc L) (kl_dec L) (kl_of L) (kl_anc L) (kl_valid L) (kl_vlink L) (kl_fits L)
      (fun s => kl_view L (fst s)) (fun s => kl_inv L (fst s)) (fun s => kl_clean L (fst s) /\ snd s = None)
      (fun s w o off => kl_open L (fst s) w o off) _ _ _ _ _ _ _ _ _ _ _ _).
    - exact (kl_of_woff _ L).
    - exact (kl_valid_woff _ L).
    - exact (kl_vlink_woff _ L).
    - exact (kl_anc_dir _ L).
    - intros [st b] e st' r Hi Hv Hk. cbn [k_mkdir crashing fst snd].
      destruct b as [[|n]|].
      + injection 1 as <- <-. splits; auto; try (intros l' _; left; reflexivity); [intros [_ ?]; discriminate|discriminate].
      + destruct (k_mkdir SK st e) as [t a] eqn:Hop. injection 1 as <- <-.
        destruct (kl_mkdir _ L _ _ _ _ Hi Hv Hk Hop) as (H1 & H2 & H3 & H4 & H5). splits; auto. intros [_ ?]; discriminate.
      + destruct (k_mkdir SK st e) as [t a] eqn:Hop. injection 1 as <- <-.
        destruct (kl_mkdir _ L _ _ _ _ Hi Hv Hk Hop) as (H1 & H2 & H3 & H4 & H5). splits; auto.
        intros [Hc _]. destruct (H3 Hc). cbn. auto.
    - intros [st b] e t0 st' r Hi Hv Hk. cbn [k_symlink crashing fst snd].
      destruct b as [[|n]|].
      + injection 1 as <- <-. splits; auto; try (intros l' _; left; reflexivity); [intros [_ ?]; discriminate|discriminate].
      + destruct (k_symlink SK st e t0) as [t a] eqn:Hop. injection 1 as <- <-.
        destruct (kl_symlink _ L _ _ _ _ _ Hi Hv Hk Hop) as (H1 & H2 & H3 & H4). splits; auto. intros [_ ?]; discriminate.
      + destruct (k_symlink SK st e t0) as [t a] eqn:Hop. injection 1 as <- <-.
        destruct (kl_symlink _ L _ _ _ _ _ Hi Hv Hk Hop) as (H1 & H2 & H3 & H4). splits; auto.
        intros [Hc _]. destruct (H3 Hc). cbn. auto.
    - intros [st b] e st' r Hi Hv Hk. cbn [k_prealloc crashing fst snd].
      destruct b as [[|n]|].
      + injection 1 as <- <-. splits; auto; try (intros l' _; left; reflexivity). intros [_ ?]; discriminate.
      + destruct (k_prealloc SK st e) as [t a] eqn:Hop. injection 1 as <- <-.
        destruct (kl_prealloc _ L _ _ _ _ Hi Hv Hk Hop) as (H1 & H2 & H3). splits; auto. intros [_ ?]; discriminate.
      + destruct (k_prealloc SK st e) as [t a] eqn:Hop. injection 1 as <- <-.
        destruct (kl_prealloc _ L _ _ _ _ Hi Hv Hk Hop) as (H1 & H2 & H3). splits; auto.
        intros [Hc _]. destruct (H3 Hc). cbn. auto.
    - intros [st b] e st' r Hi Hv Hk H0 Hf. cbn [k_getw crashing fst snd].
      destruct b as [[|n]|].
      + injection 1 as <- <-. splits; auto; try (intros l' _; left; reflexivity).
        * intros l c n Ho Hw Hn Hc. exists c. auto.
        * intros [_ ?]; discriminate.
      + destruct (k_getw SK st e) as [t a] eqn:Hop. injection 1 as <- <-.
        destruct (kl_getw _ L _ _ _ _ Hi Hv Hk H0 Hf Hop) as (H1 & H2 & H3 & H4). splits; auto. destruct a; auto.
        * destruct H4 as (K1 & K2 & K3). splits; auto. intros [_ ?]; discriminate.
        * intros [_ ?]; discriminate.
      + destruct (k_getw SK st e) as [t a] eqn:Hop. injection 1 as <- <-.
        destruct (kl_getw _ L _ _ _ _ Hi Hv Hk H0 Hf Hop) as (H1 & H2 & H3 & H4). splits; auto. destruct a; auto.
        * destruct H4 as (K1 & K2 & K3). splits; auto. intros [Hc _]. cbn. auto.
        * cbn. tauto.
    - intros [st b] w l off Hi Ho. exact (kl_open_file _ L _ _ _ _ Hi Ho).
    - intros [st b] w o off d st' n adv e Hi Ho Hf. cbn [k_write crashing fst snd].
      destruct b as [[|bn]|].
      + injection 1 as <- <- <- <-. splits; auto; try lia; try discriminate.
        * intros [_ ?]; discriminate.
        * destruct o as [l|]; splits; auto; [rewrite Nat.add_0_r; exact Ho|]. intros c Hc. cbn. rewrite app_nil_r. exact Hc.
      + destruct (k_write SK st w d) as [t [[n' adv'] e']] eqn:Hop. injection 1 as <- <- <- <-.
        destruct (kl_write _ L _ _ _ _ _ _ _ _ _ Hi Ho Hf Hop) as (H1 & H2 & H3 & H4 & H5). splits; auto. intros [_ ?]; discriminate.
      + destruct (k_write SK st w d) as [t [[n' adv'] e']] eqn:Hop. injection 1 as <- <- <- <-.
        destruct (kl_write _ L _ _ _ _ _ _ _ _ _ Hi Ho Hf Hop) as (H1 & H2 & H3 & H4 & H5). splits; auto.
        intros [Hc _]. destruct (H4 Hc). cbn. auto.
    - intros [st b] w o off st' r Hi Ho. cbn [k_sync crashing fst snd].
      destruct b as [[|bn]|].
      + injection 1 as <- <-. splits; auto. intros [_ ?]; discriminate.
      + destruct (k_sync SK st w) as [t a] eqn:Hop. injection 1 as <- <-.
        destruct (kl_sync _ L _ _ _ _ _ _ Hi Ho Hop) as (H1 & H2 & H3 & H4). splits; auto. intros [_ ?]; discriminate.
      + destruct (k_sync SK st w) as [t a] eqn:Hop. injection 1 as <- <-.
        destruct (kl_sync _ L _ _ _ _ _ _ Hi Ho Hop) as (H1 & H2 & H3 & H4). splits; auto. intros [Hc _]. destruct (H3 Hc). cbn. auto.
    - intros [st b] w o off st' r Hi Ho. cbn [k_closew crashing fst snd].
      destruct b as [[|bn]|].
      + injection 1 as <- <-. splits; auto.
      + destruct (k_closew SK st w) as [t a] eqn:Hop. injection 1 as <- <-.
        destruct (kl_closew _ L _ _ _ _ _ _ Hi Ho Hop) as (H1 & H2 & H3). splits; auto. intros [_ ?]; discriminate.
      + destruct (k_closew SK st w) as [t a] eqn:Hop. injection 1 as <- <-.
        destruct (kl_closew _ L _ _ _ _ _ _ Hi Ho Hop) as (H1 & H2 & H3). splits; auto. intros [Hc ?]. cbn. auto.
  Defined.
End Crash.

(** ** Members of lawful archives *)
Section Members.
  Context (A : bytes) (C : codec) (fuel0 : nat) (pol : bool).

  Lemma mgood_mono B B' m : (B <= B')%nat -> mgood A C fuel0 pol B m -> mgood A C fuel0 pol B' m.
  Proof.
    intros Hle. unfold mgood. destruct (zm_via C fuel0 m); [|auto].
    destruct (is_store m); intros (LL & [F1 F2 F3 F4 F5 F6 F7 F8 F9 F10]); exists LL; split; auto; lia.
  Qed.

  Lemma zm_ok_good m : zm_ok A C fuel0 pol m -> exists B, mgood A C fuel0 pol B m.
  Proof.
    unfold zm_ok, mgood. destruct (zm_via C fuel0 m) as [k|] eqn:Hv; [|exists 0%nat; exact Logic.I].
    intros (b & byt & p & Hden).
    assert (Hrs : forall io, io_ok A pol m io ->
       rs_of (slice A (Z.to_nat (zm_off m)) (Z.to_nat (zm_csize m))) (zi_section io (zm_off m) (zm_csize m)) /\
       stk_flag pol (rs_separate (zi_section io (zm_off m) (zm_csize m)))).
    { intros io (_ & H & _). destruct (H (zm_off m) (zm_csize m)) as [H1 H2]. auto. }
    exists b. unfold zm_via in Hv. destruct (en_kind (zm_entry m)); try discriminate.
    unfold is_store. destruct (zf_method (zm_file m) =? zip_store) eqn:Hst.
    - injection Hv as <-.
      inversion Hden as [H1 H2 H3 HK Herr Hb|]; subst.
      set (SL := seek_laws (slice A (Z.to_nat (zm_off m)) (Z.to_nat (zm_csize m))) 0 (zm_csize m) p H1 H2 H3).
      assert (Hlaws : exists LL : laws (stk_source KSeek) (zm_data m) (zm_err m),
        lw_late LL = false /\ lw_bound LL = length (seek_data (slice A (Z.to_nat (zm_off m)) (Z.to_nat (zm_csize m))) 0 (zm_csize m)) /\
        (forall c, lw_ck LL c -> lw_ck LL (MkCk (ck_off c) None)) /\ lw_polite LL = p /\
        (forall c c', lw_ck LL c -> spoilt KSeek c c' -> lands LL (Some c') 0 (ck_off c)) /\
        (forall rs, rs_of (slice A (Z.to_nat (zm_off m)) (Z.to_nat (zm_csize m))) rs -> stk_flag p (rs_separate rs) ->
           lw_wf LL (stk_new KSeek rs 0 (zm_csize m)) /\ lw_quiet LL (stk_new KSeek rs 0 (zm_csize m)) /\
           (rs_good rs -> lw_clean LL (stk_new KSeek rs 0 (zm_csize m))))).
      { rewrite <- Herr, <- Hb. exists SL. splits; try reflexivity.
        - intros c Hc. exact Hc.
        - intros c c' Hc Hs. exact (seek_spoil _ _ _ _ H1 H2 H3 c c' Hc Hs).
        - intros rs Hr1 Hr2. splits.
          + cbn. split; [reflexivity|]. split; [reflexivity|]. split; [exact Hr1|]. exact Hr2.
          + reflexivity.
          + intros [Hg1 Hg2]. split; [|cbn; discriminate]. split; [|exact Hg1].
            cbn. intros [|] Hi; [tauto|reflexivity]. }
      destruct Hlaws as (LL & F1 & F2 & F3 & F5 & F6 & F4). exists LL. split; auto.
      + rewrite F2. unfold seek_data. lia.
      + rewrite F5. unfold zpolite, is_store. rewrite Hst. reflexivity.
      + intros sc sc' Hc Hs. exact (F6 _ _ Hc Hs).
      + intros io Hio. destruct (Hrs io Hio) as [R1 R2]. exact (proj1 (F4 _ R1 R2)).
      + intros io Hio. destruct (Hrs io Hio) as [R1 R2]. exact (proj1 (proj2 (F4 _ R1 R2))).
      + intros io Hio (_ & Hg & _). destruct (Hrs io Hio) as [R1 R2]. exact (proj2 (proj2 (F4 _ R1 R2)) (Hg _ _)).
    - destruct (zf_method (zm_file m) =? zip_deflate); [|discriminate]. injection Hv as <-.
      destruct (stk_laws _ _ _ _ _ _ _ _ _ _ _ Hden) as (LL & [F1 F2 F3 F4 F5 F6 F7 F8]).
      exists LL. split; auto; try lia.
      + rewrite F2. unfold zpolite, is_store. rewrite Hst. inversion Hden; subst; reflexivity.
      + intros sc sc' Hc Hs. exact (proj1 (F8 _ _ Hc Hs)).
      + intros io Hio. destruct (Hrs io Hio). auto.
      + intros io Hio. destruct (Hrs io Hio). auto.
      + intros io Hio (_ & Hg & _). destruct (Hrs io Hio). auto.
  Qed.

  Lemma all_good ms : Forall (zm_ok A C fuel0 pol) ms -> exists B, Forall (mgood A C fuel0 pol B) ms.
  Proof.
    induction 1 as [|m ms Hm _ (B & IH)]; [exists 0%nat; constructor|].
    destruct (zm_ok_good m Hm) as (B1 & H1). exists (B1 + B)%nat. constructor.
    - eapply mgood_mono; [|exact H1]. lia.
    - eapply Forall_impl; [|exact IH]. intros a. apply mgood_mono. lia.
  Qed.
End Members.

(** ** Lives *)
Section Lives.
  Context (A : bytes) (C : codec) (fuel0 : nat) (pol : bool) (ms : list zmember).
  Context {SK : sink} (L : sink_laws SK) (st0 : k_st SK) (mem : bool).
  Context (B : nat).
  Hypothesis Hvalid : storable L (zitems ms).
  Hypothesis Hms : Forall (mgood A C fuel0 pol B) ms.
  Hypothesis Hinv0 : kl_inv L st0.
  Notation CL := (crash_laws L).
  Notation good := (fun s => zgood A C fuel0 pol ms (crashing SK) CL (kl_view L st0) B (s, None)).

  Lemma zgood_budget st b b' c : zgood A C fuel0 pol ms (crashing SK) CL (kl_view L st0) B (st, b) c ->
    zgood A C fuel0 pol ms (crashing SK) CL (kl_view L st0) B (st, b') c.
  Proof. intros H. exact H. Qed.

  Lemma zgood_views (st st' : k_st SK) c : (forall l, kl_view L st' l = kl_view L st l) -> good st c -> good st' c.
  Proof.
    intros Hv (H1 & H2 & H3). split; [exact H1|]. split.
    - destruct H2 as (A1 & A2 & A3). split; [|split].
      + intros i e nd l E1 E2 E3 E4. change (kl_view L st' l = Some nd). rewrite Hv. exact (A1 i e nd l E1 E2 E3 E4).
      + intros i e nd l l' E1 E2 E3 E4. change (kl_view L st' l' = Some NDir). rewrite Hv. exact (A2 i e nd l l' E1 E2 E3 E4).
      + intros l ? ?. change (kl_view L st' l = kl_view L st0 l). rewrite Hv. exact (A3 l H H0).
    - intros e D l E1 E2 E3 E4. change (exists c0, kl_view L st' l = Some (NFile c0) /\ (ckw C fuel0 ms c <= length c0)%nat /\
        firstn (ckw C fuel0 ms c) c0 = firstn (ckw C fuel0 ms c) D). rewrite Hv. exact (H3 e D l E1 E2 E3 E4).
  Qed.

  Lemma zspoilt_pos c c' : zspoilt C fuel0 ms c c' -> cpos C fuel0 ms c' = cpos C fuel0 ms c.
  Proof. intros (H1 & H2 & _). unfold cpos, ckw, cidx, ck_woff. rewrite H1, H2. reflexivity. Qed.

  Lemma zspoilt_src_trans m a b c : zspoilt_src C fuel0 m a b -> zspoilt_src C fuel0 m b c -> zspoilt_src C fuel0 m a c.
  Proof. unfold zspoilt_src. destruct (_ =? _); apply spoilt_trans. Qed.

  Lemma zspoilt_good st c c' : zspoilt C fuel0 ms c c' -> good st c -> good st c'.
  Proof.
    intros Hsp (G1 & G2 & G3). pose proof (zspoilt_pos c c' Hsp) as Hp. unfold cpos in Hp. injection Hp as Hp1 Hp2.
    destruct Hsp as (H1 & H2 & H3). unfold zgood. rewrite Hp1, Hp2. split; [|split; assumption].
    destruct G1 as (S1 & S2). split; [rewrite H1, Hp1; exact S1|]. rewrite Hp1, H2.
    destruct S2 as [(S2 & S3 & S4)|(m & w & S2 & S3 & S4)].
    - left. splits; auto. destruct H3 as [H3|(m & sc & sc' & _ & H3 & _)]; [exact H3|congruence].
    - right. exists m, w. splits; auto.
      destruct (zm_via C fuel0 m).
      + destruct S4 as (T1 & T2 & T3). splits; auto.
        destruct H3 as [-> |(m' & sc & sc' & M & H3 & -> & Hs)]; [exact Logic.I|].
        change (nth_error ms (cidx C fuel0 c) = Some m') in M. rewrite S2 in M. injection M as <-.
        rewrite H3 in T3. destruct T3 as (sc0 & U1 & U2 & U3). exists sc0. splits; auto. right.
        destruct U3 as [-> | U3]; [exact Hs|eapply zspoilt_src_trans; eassumption].
      + destruct H3 as [H3|(m' & sc & sc' & _ & H3 & _)]; [exact H3|congruence].
  Qed.

  Lemma csorted_skip later c earlier : csorted C fuel0 ms (later ++ c :: earlier) -> csorted C fuel0 ms (c :: earlier).
  Proof. induction later as [|a l IH]; cbn; [auto|]. intros H. inversion H; subst. auto. Qed.

  Lemma zgood_power st st' c c1 :
    loss_spares L (firstn (cidx C fuel0 c) (zitems ms)) (skipn (cidx C fuel0 c) (zitems ms)) (ec_entry c) st st' ->
    ple (cpos C fuel0 ms c1) (cpos C fuel0 ms c) -> good st c -> good st c1 -> good st' c1.
  Proof.
    intros Hloss Hp (C1 & C2 & C3) (G1 & G2 & G3). unfold ple, cpos in Hp. cbn [fst snd] in Hp.
    change (loss_spares CL (firstn (cidx C fuel0 c) (zitems ms)) (skipn (cidx C fuel0 c) (zitems ms)) (ec_entry c) (st, None) (st', None)) in Hloss.
    split; [exact G1|]. split.
    - refine (loss_settled CL (zitems ms) _ _ _ _ Hloss (kl_view L st0) (cidx C fuel0 c1) _ G2); lia.
    - destruct (Nat.lt_ge_cases (cidx C fuel0 c1) (cidx C fuel0 c)) as [Hlt|Hge].
      + eapply loss_part_done; [exact Hloss|exact Hlt|exact G3].
      + assert (He : cidx C fuel0 c1 = cidx C fuel0 c) by lia. rewrite He.
        eapply (loss_part_cur CL (zitems ms)) with (1 := Hloss) (w := ckw C fuel0 ms c); [lia| |exact C3].
        intros e nd Hw Hn. destruct C1 as (_ & [(S1 & _)|(m & w & S1 & S2 & _)]).
        * exfalso. revert Hw. unfold ckw, ck_woff. rewrite S1. destruct (nth_error ms _); [destruct (zm_via C fuel0 _)|]; cbn; lia.
        * unfold zitems in Hn. rewrite nth_error_map, S1 in Hn. injection Hn as <- _. rewrite S2. unfold ckw, ck_woff in *. rewrite S1, S2 in *.
          destruct (zm_via C fuel0 m); [|lia]. cbn [en_woff set_woff]. rewrite Nat2Z.id. reflexivity.
  Qed.

  Lemma life_good st cks : zlife A C fuel0 pol ms L st0 mem st cks ->
    kl_inv L st /\ outside L (zitems ms) (kl_view L st0) st /\
    Forall (good st) cks /\ csorted C fuel0 ms cks /\ (mem = false -> Forall (fun c => tight A C fuel0 pol ms B c /\ ec_prog c = frac ms (cpos C fuel0 ms c) /\ inbounds ms (cpos C fuel0 ms c) /\
        exists m sc, ec_src c = Some sc /\ nth_error ms (cidx C fuel0 c) = Some m /\ gck A C fuel0 pol B m sc /\ ck_woff C fuel0 c <= ck_off sc) cks).
  Proof.
    induction 1 as [|st st' cks Hl IH Hi Hv|st cks SV io fuel v n out Hl IH Hio Hout|st later c earlier SV io fuel v n out Hl IH Hio Hout
      |st later c c' earlier Hmem Hl IH Hsp|st cks c SV io fuel v n out Hmem Hl IH Hc Hio Hout
      |st cks SV io fuel v n out os Hmem Hl IH Hio Hout Hos|st later c earlier SV io fuel v n out os Hmem Hl IH Hne Hio Hout Hos
      |st st' later c earlier Hl IH Hi Hloss|st st' cks Hl IH Hi Hloss].
    - splits; auto; try constructor.
    - destruct IH as (I1 & I2 & I3 & I4 & I5). splits; auto.
      + intros l H1 H2. rewrite Hv. auto.
      + eapply Forall_impl; [|exact I3]. intros c. apply zgood_views. exact Hv.
    - destruct IH as (I1 & I2 & I3 & I4 & I5).
      destruct (zip_resume_ok A C fuel0 pol ms (crashing SK) CL SV (kl_view L st0) B Hvalid Hms None [] io fuel (st, n) v out Hio I1 I2 Logic.I Hout) as [[R1 R2 R3 R4 R5 _ _ _ _ _] _].
      rewrite app_nil_r in R3, R4. splits; auto.
      intros _. apply Forall_rev. apply Forall_map. eapply Forall_impl; [|exact R5].
      intros [c s] (m & k & w & sc & Hm & _ & He & Hsrc & Ht & Hp & Hb & Hw & _). split; [exact (proj1 Ht)|]. cbn [fst]. rewrite Hp. unfold cpos. rewrite Hw. split; [reflexivity|]. split; [exact Hb|].
        exists m, sc. splits; auto; [apply Ht|]. unfold ck_woff. rewrite He. apply Ht.
    - destruct IH as (I1 & I2 & I3 & I4 & I5).
      apply Forall_app in I3. destruct I3 as [_ I3]. pose proof (csorted_skip _ _ _ I4) as I6.
      destruct (zip_resume_ok A C fuel0 pol ms (crashing SK) CL SV (kl_view L st0) B Hvalid Hms (Some c) earlier io fuel (st, n) v out Hio I1 I2 (conj I3 I6) Hout) as [[R1 R2 R3 R4 R5 _ _ _ R6 _] _].
      splits; auto.
      + apply Forall_app. split; [|exact R3]. destruct mem; [|constructor].
        destruct (zo_ck _ _ _ _ out) as [c'|] eqn:Hck; [|constructor].
        destruct (zo_res _ _ _ _ out) as [|e| |]; try constructor.
        destruct (gerr_eqb e EStop); constructor; [|constructor]. exact (proj1 (R6 c' eq_refl)).
      + destruct mem; [|exact R4].
        destruct (zo_ck _ _ _ _ out) as [c'|] eqn:Hck; [|exact R4].
        destruct (zo_res _ _ _ _ out) as [|e| |] eqn:Hr; try exact R4.
        destruct (gerr_eqb e EStop) eqn:He; [exact R4|]. constructor; [exact R4|].
        apply (proj2 (R6 c' eq_refl) e); [reflexivity|]. intros ->. discriminate.
      + intros ->. cbn [app]. specialize (I5 eq_refl). apply Forall_app in I5.
        apply Forall_app. split; [|exact (proj2 I5)].
        apply Forall_rev. apply Forall_map. eapply Forall_impl; [|exact R5].
        intros [c1 s] (m & k & w & sc & Hm & _ & He & Hsrc & Ht & Hp & Hb & Hw & _). split; [exact (proj1 Ht)|]. cbn [fst]. rewrite Hp. unfold cpos. rewrite Hw. split; [reflexivity|]. split; [exact Hb|].
        exists m, sc. splits; auto; [apply Ht|]. unfold ck_woff. rewrite He. apply Ht.
    - destruct IH as (I1 & I2 & I3 & I4 & I5).
      pose proof I3 as I3'. apply Forall_app in I3'. destruct I3' as [I3a I3b]. inversion I3b as [|? ? Hc Hrest]; subst.
      pose proof (zspoilt_pos c c' Hsp) as Hpos.
      splits; auto; try congruence.
      + apply Forall_app. split; [exact I3a|]. constructor; [|exact I3b]. exact (zspoilt_good st c c' Hsp Hc).
      + clear - I4 Hpos. induction later as [|a l IH]; cbn in *.
        * constructor; [exact I4|]. rewrite Hpos. constructor; [apply ple_refl|]. inversion I4; subst. assumption.
        * inversion I4 as [|? ? J1 J2]; subst. constructor; [apply IH; exact J1|].
          apply Forall_app in J2. destruct J2 as [J2 J3]. apply Forall_app. split; [exact J2|].
          constructor; [|exact J3]. rewrite Hpos. inversion J3; subst. assumption.
    - destruct IH as (I1 & I2 & I3 & I4 & I5).
      assert (Hpre : match c with Some ck => Forall (good st) [ck] /\ csorted C fuel0 ms [ck] | None => True end).
      { destruct c as [ck|]; [|exact Logic.I]. split; [|repeat constructor]. constructor; [|constructor].
        rewrite Forall_forall in I3. exact (I3 ck (Hc ck eq_refl)). }
      destruct (zip_resume_ok A C fuel0 pol ms (crashing SK) CL SV (kl_view L st0) B Hvalid Hms c [] io fuel (st, n) v out Hio I1 I2 Hpre Hout) as [[R1 R2 _ _ _ _ _ _ _ R6 _] _].
      splits; auto; try congruence; repeat constructor; exact R6.
    - destruct IH as (I1 & I2 & I3 & I4 & I5).
      destruct (zip_resume_ok A C fuel0 pol ms (crashing SK) CL SV (kl_view L st0) B Hvalid Hms None [] io fuel (st, n) v out Hio I1 I2 Logic.I Hout) as [[R1 R2 R3 R4 _ _ _ _ _ _] _].
      destruct (zip_resume_share A C fuel0 pol ms (crashing SK) CL SV (kl_view L st0) B Hvalid Hms None [] io fuel (st, n) v out Hio I1 I2 Logic.I Hout) as [S1 S2].
      rewrite app_nil_r in R3, R4, S1. subst os. splits; auto; try congruence.
      + apply Forall_map. apply Forall_forall. exact S1.
      + apply shallow_sorted; [|exact R4]. apply Forall_rev. apply Forall_map. exact S2.
    - destruct IH as (I1 & I2 & I3 & I4 & I5).
      apply Forall_app in I3. destruct I3 as [_ I3]. pose proof (csorted_skip _ _ _ I4) as I6.
      destruct (zip_resume_ok A C fuel0 pol ms (crashing SK) CL SV (kl_view L st0) B Hvalid Hms (Some c) earlier io fuel (st, n) v out Hio I1 I2 (conj I3 I6) Hout) as [[R1 R2 R3 R4 _ _ _ _ _ _] _].
      destruct (zip_resume_share A C fuel0 pol ms (crashing SK) CL SV (kl_view L st0) B Hvalid Hms (Some c) earlier io fuel (st, n) v out Hio I1 I2 (conj I3 I6) Hout) as [S1 S2].
      subst os. splits; auto; try congruence.
      + apply Forall_map. apply Forall_forall. exact S1.
      + apply shallow_sorted; [|exact R4]. apply Forall_app. split; [|exact Hne]. apply Forall_rev. apply Forall_map. exact S2.
    - destruct IH as (I1 & I2 & I3 & I4 & I5).
      apply Forall_app in I3. destruct I3 as [_ I3]. pose proof (csorted_skip _ _ _ I4) as I6.
      unfold zitems in Hloss. rewrite <- firstn_map, <- skipn_map in Hloss. fold (zitems ms) in Hloss.
      splits; auto.
      + exact (loss_outside L (zitems ms) _ _ st st' Hloss (kl_view L st0) I2).
      + inversion I6 as [|? ? _ Hle]; subst. pose proof (Forall_inv I3) as Hc. apply Forall_forall. intros c1 Hin.
        assert (Hp : ple (cpos C fuel0 ms c1) (cpos C fuel0 ms c)).
        { destruct Hin as [<-|Hin]; [apply ple_refl|]. rewrite Forall_forall in Hle. exact (Hle c1 Hin). }
        rewrite Forall_forall in I3. exact (zgood_power st st' c c1 Hloss Hp Hc (I3 c1 Hin)).
      + intros Hm. specialize (I5 Hm). apply Forall_app in I5. exact (proj2 I5).
    - destruct IH as (I1 & I2 & I3 & I4 & I5). splits; auto; try constructor.
      exact (loss_outside L (zitems ms) 0%nat None st st' Hloss (kl_view L st0) I2).
  Qed.
End Lives.
