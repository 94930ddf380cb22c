(** Zip3_proofs.v -- from single runs to the statements of Props_zip.v. *)
From Verif Require Import Base Base_proofs Source Seek Decomp CodecSpec Contract Drive
  Copier Sink Zip SinkSpec Settle_proofs ZipSpec Zip_proofs Zip2_proofs.
From Coq Require Import Sorted.

Lemma node_eq_dec (a b : option node) : {a = b} + {a <> b}.
Proof. repeat decide equality. Qed.

(** ** There is only one extracted content. *)
Section Unique.
  Context {SK : sink} (L : sink_laws SK) (items : list item).

  Lemma last_at : forall its l, (exists i e nd, nth_error its i = Some (e, nd) /\ kl_of L e = Some l /\ is_last L its i l) \/
    ~ some_item_at L its l.
  Proof.
    induction its as [|[e nd] its IH]; intros l.
    - right. intros (it & [] & _).
    - destruct (IH l) as [(i & e1 & nd1 & H1 & H2 & H3)|Hno].
      + left. exists (S i), e1, nd1. splits; auto. intros j it Hj Hn. destruct j; [lia|]. apply (H3 j); [lia|exact Hn].
      + assert (Hd : {kl_of L e = Some l} + {kl_of L e <> Some l}).
        { destruct (kl_of L e) as [l'|]; [|right; discriminate].
          destruct (kl_dec L l' l); [left; congruence|right; congruence]. }
        destruct Hd as [Hd|Hd].
        * left. exists 0%nat, e, nd. splits; auto. intros j it Hj Hn Ho. apply Hno. exists it. split; [|exact Ho].
          destruct j; [lia|]. cbn in Hn. eapply nth_error_In; exact Hn.
        * right. intros (it & [<-|Hi] & Ho); [exact (Hd Ho)|]. apply Hno. exists it. auto.
  Qed.

  Lemma extracted_unique view0 s1 s2 : extracted L items view0 s1 -> extracted L items view0 s2 ->
    forall l, kl_view L s1 l = kl_view L s2 l.
  Proof.
    intros (A1 & A2 & A3) (B1 & B2 & B3) l.
    destruct (last_at items l) as [(i & e & nd & H1 & H2 & H3)|Hno].
    - rewrite (A1 i e nd l H1 H2 H3), (B1 i e nd l H1 H2 H3). reflexivity.
    - destruct (node_eq_dec (kl_view L s1 l) (kl_view L s2 l)) as [|Hne]; [assumption|]. exfalso.
      assert (Hb : ~ some_item_below L items l).
      { intros Hb. apply Hne. rewrite (A2 l Hb Hno), (B2 l Hb Hno). reflexivity. }
      apply Hne. rewrite (A3 l Hno Hb), (B3 l Hno Hb). reflexivity.
  Qed.
End Unique.

(** ** Runs *)
Section Runs.
  Context (A : bytes) (C : codec) (fuel0 : nat) (pol : bool) (ms : list zmember).
  Context {SK : sink} (L : sink_laws SK) (st0 : k_st SK) (mem : bool) (SV : saver (zck C fuel0) unit).

  Lemma za_items : zarchive A C fuel0 pol L ms -> storable L (zitems ms).
  Proof. intros [_ H]. exact H. Qed.

  Lemma zrun_ok B : zarchive A C fuel0 pol L ms -> kl_inv L st0 -> Forall (mgood A C fuel0 pol B) ms ->
    forall c io fuel st out, zrun A C fuel0 pol ms L st0 mem SV c io fuel st out ->
    exists earlier, run_ok A C fuel0 pol ms SK L SV (kl_view L st0) B c earlier out /\
      (mem = false -> match c with Some ck => tight A C fuel0 pol ms B ck /\ ec_prog ck = frac ms (cpos C fuel0 ms ck) /\ inbounds ms (cpos C fuel0 ms ck) /\
        exists m sc, ec_src ck = Some sc /\ nth_error ms (cidx C fuel0 ck) = Some m /\ gck A C fuel0 pol B m sc /\ ck_woff C fuel0 ck <= ck_off sc | None => True end) /\
      (Forall (fun m => zm_via C fuel0 m = None \/ zpolite C pol m = true) ms -> match c with Some ck => tight A C fuel0 pol ms B ck | None => True end) /\
      (match c with Some ck => (cidx C fuel0 ck <= length ms)%nat /\ ec_index ck = Z.of_nat (cidx C fuel0 ck) /\
         (ec_entry ck = None \/ exists m w, nth_error ms (cidx C fuel0 ck) = Some m /\ ec_entry ck = Some (set_woff (zm_entry m) (Z.of_nat w)))
       | None => True end) /\
      (saver_goes_on SV -> run_live A C fuel0 pol ms SK L SV B c io fuel -> kl_clean L st ->
       if existsb enc (skipn (fst (start_of C fuel0 ms c)) ms) then zo_res _ _ _ _ out = Err EEncrypted
       else zo_res _ _ _ _ out = Ok (zip_entries (zfiles ms)) /\ kl_clean L (zo_sink _ _ _ _ out)).
  Proof.
    intros HA Hi0 HB c io fuel st out Hrun. pose proof (za_items HA) as Hv.
    destruct Hrun as [st cks io fuel v out Hl Hio Hout|st later c earlier io fuel v out Hl Hio Hout];
      destruct (life_good A C fuel0 pol ms L st0 mem B Hv HB Hi0 _ _ Hl) as (I1 & I2 & I3 & I4 & I5).
    - destruct (zip_resume_ok A C fuel0 pol ms SK L SV (kl_view L st0) B Hv HB None [] io fuel st v out Hio I1 I2 Logic.I Hout) as [R1 R2].
      exists []. splits; auto. intros Hg Hr Hc. destruct (R2 Hr Hc) as [(X & _)|X]; [contradiction|exact X].
    - apply Forall_app in I3. destruct I3 as [_ I3]. pose proof (csorted_skip C fuel0 ms _ _ _ I4) as I6.
      assert (I3' : Forall (zgood A C fuel0 pol ms SK L (kl_view L st0) B st) (c :: earlier)) by exact I3.
      destruct (zip_resume_ok A C fuel0 pol ms SK L SV (kl_view L st0) B Hv HB (Some c) earlier io fuel st v out Hio I1 I2 (conj I3' I6) Hout) as [R1 R2].
      exists earlier. splits; auto.
      + intros Hm. specialize (I5 Hm). apply Forall_app in I5. destruct I5 as [_ I5]. inversion I5; subst. assumption.
      + intros Hpol. inversion I3' as [|? ? G _]; subst. destruct G as ((_ & [(G1 & G2 & _)|(m & w & G1 & _)]) & _).
        * left. rewrite G2. unfold ck_woff. rewrite G1. lia.
        * right. exists m. split; [exact G1|]. rewrite Forall_forall in Hpol. apply Hpol. eapply nth_error_In; exact G1.
      + inversion I3' as [|? ? G _]; subst. eapply cidx_le; exact G.
      + inversion I3' as [|? ? G _]; subst. exact (proj1 (proj1 G)).
      + inversion I3' as [|? ? G _]; subst. destruct G as ((_ & [(G1 & _)|(m & w & G1 & G2 & _)]) & _); [left; exact G1|right; eauto].
      + intros Hg Hr Hc. destruct (R2 Hr Hc) as [(X & _)|X]; [contradiction|exact X].
  Qed.

  (** Ok means extracted. *)
  Lemma zrun_extracted : zarchive A C fuel0 pol L ms -> kl_inv L st0 ->
    forall c io fuel st out l, zrun A C fuel0 pol ms L st0 mem SV c io fuel st out -> zo_res _ _ _ _ out = Ok l ->
    extracted L (zitems ms) (kl_view L st0) (zo_sink _ _ _ _ out) /\ l = zip_entries (zfiles ms) /\
    forall i m, (fst (start_of C fuel0 ms c) <= i)%nat -> nth_error ms i = Some m -> zm_via C fuel0 m <> None -> zm_err m = EEof.
  Proof.
    intros HA Hi0 c io fuel st out l Hrun Hres.
    destruct (all_good A C fuel0 pol ms (za_ok _ _ _ _ _ _ HA)) as (B & HB).
    destruct (zrun_ok B HA Hi0 HB _ _ _ _ _ Hrun) as (earlier & [_ _ _ _ _ _ _ R _ _] & _).
    rewrite Hres in R. destruct R as (R1 & R2 & R3). splits; auto.
    apply settled_extracted. unfold zitems. rewrite map_length. exact R2.
  Qed.
End Runs.

(** ** Progress *)
Section Progress.
  Context (ms : list zmember).
  Definition honest (m : zmember) : Prop :=
    Z.of_nat (length (zm_data m)) <= zf_usize (zm_file m) < two63.
  Fixpoint total (l : list zmember) : Z := match l with [] => 0 | m :: l' => zf_usize (zm_file m) + total l' end.
  Lemma total_nonneg l : Forall honest l -> 0 <= total l.
  Proof. induction 1 as [|m l H _ IH]; cbn; [lia|]. unfold honest in H. lia. Qed.
  Lemma total_app a b : total (a ++ b) = total a + total b.
  Proof. induction a as [|m a IH]; cbn; lia. Qed.

  Lemma sum_sizes_from l : forall a, 0 <= a -> a + total l < two63 -> Forall honest l ->
    fold_left (fun a f => wrap64 (a + wrap64 (zf_usize f))) (map zm_file l) a = a + total l.
  Proof.
    induction l as [|m l IH]; intros a Ha Hs H; [cbn; lia|].
    inversion H as [|? ? Hm Hl]; subst. pose proof (total_nonneg l Hl). cbn [map fold_left total] in *. unfold honest in Hm.
    rewrite (wrap64_id (zf_usize (zm_file m))) by (unfold is_int64; lia). rewrite wrap64_id by (unfold is_int64; lia).
    rewrite IH; [lia|lia|lia|exact Hl].
  Qed.

  Lemma Forall_firstn_honest l i : Forall honest l -> Forall honest (firstn i l).
  Proof. intros H. rewrite <- (firstn_skipn i l) in H. apply Forall_app in H. exact (proj1 H). Qed.
  Lemma firstn_total_mono0 : forall l i d, Forall honest l -> total (firstn i l) <= total (firstn (i + d) l).
  Proof.
    induction l as [|b l IHl]; intros i d Hl; [rewrite !firstn_nil; lia|].
    inversion Hl as [|? ? Hb Hl']; subst. destruct i as [|i].
    - cbn [Nat.add]. change (total (firstn 0 (b :: l))) with 0. apply total_nonneg. apply Forall_firstn_honest. exact Hl.
    - cbn [firstn Nat.add total]. specialize (IHl i d Hl'). lia.
  Qed.

  Hypothesis Hh : Forall honest ms.
  Hypothesis Ht : 0 < total ms < two63.

  Lemma doneZ_total i : doneZ ms i = total (firstn i ms).
  Proof.
    unfold doneZ, sum_sizes, zfiles. rewrite firstn_map.
    rewrite <- (firstn_skipn i ms) in Hh, Ht. apply Forall_app in Hh. destruct Hh as [H1 H2].
    pose proof (total_nonneg _ H2). rewrite total_app in Ht.
    rewrite sum_sizes_from; [reflexivity|lia|lia|exact H1].
  Qed.

  Definition pval (q : pos) : Z := total (firstn (fst q) ms) + Z.of_nat (snd q).

  Lemma firstn_total_S i m : nth_error ms i = Some m -> total (firstn (S i) ms) = total (firstn i ms) + zf_usize (zm_file m).
  Proof.
    clear. revert i. induction ms as [|a l IH]; intros [|i] H; try discriminate.
    - injection H as <-. cbn. lia.
    - cbn [nth_error] in H. specialize (IH i H). change (firstn (S (S i)) (a :: l)) with (a :: firstn (S i) l).
      change (firstn (S i) (a :: l)) with (a :: firstn i l). cbn [total]. lia.
  Qed.
  Lemma firstn_total_mono i j : (i <= j)%nat -> total (firstn i ms) <= total (firstn j ms).
  Proof. intros Hij. replace j with (i + (j - i))%nat by lia. apply firstn_total_mono0. exact Hh. Qed.

  Lemma pval_bounds q : inbounds ms q -> 0 <= pval q <= total ms.
  Proof.
    intros (m & Hm & Hq). unfold pval.
    pose proof (firstn_total_S _ _ Hm) as HS.
    assert (Hhm : honest m) by (rewrite Forall_forall in Hh; apply Hh; eapply nth_error_In; exact Hm). unfold honest in Hhm.
    assert (0 <= total (firstn (fst q) ms)) by (apply total_nonneg; apply Forall_firstn_honest; exact Hh).
    assert (total (firstn (S (fst q)) ms) <= total ms).
    { assert (Hlt : (fst q < length ms)%nat) by (apply nth_error_Some; congruence).
      rewrite <- (firstn_all ms) at 2. apply firstn_total_mono. lia. }
    lia.
  Qed.
  Lemma pval_mono q q' : inbounds ms q -> ple q q' -> pval q <= pval q'.
  Proof.
    intros (m & Hm & Hq) [Hlt|[He Hle]]; unfold pval.
    - pose proof (firstn_total_S _ _ Hm) as HS.
      assert (Hhm : honest m) by (rewrite Forall_forall in Hh; apply Hh; eapply nth_error_In; exact Hm). unfold honest in Hhm.
      pose proof (firstn_total_mono (S (fst q)) (fst q') ltac:(lia)). lia.
    - rewrite He. lia.
  Qed.

  Lemma frac_val q : inbounds ms q -> exists p, total ms = Zpos p /\ frac ms q = Some (pval q # p)%Q.
  Proof.
    intros Hq. pose proof (pval_bounds q Hq) as Hb. unfold frac. rewrite doneZ_total. fold (pval q).
    assert (Hs : sum_sizes (zfiles ms) = total ms).
    { unfold sum_sizes, zfiles. rewrite sum_sizes_from; [lia|lia|lia|exact Hh]. }
    rewrite Hs. destruct (total ms) as [|p|p] eqn:Ep; try lia.
    exists p. split; [reflexivity|]. unfold pval in *. rewrite wrap64_id; [reflexivity|]. unfold is_int64. lia.
  Qed.
End Progress.
