(** Again_proofs.v -- stopping and resuming comes to an end. *)
From Verif Require Import Base Base_proofs Source Contract Seek Decomp CodecSpec Drive SpoilSpec Stack_proofs Copier Sink SinkSpec Settle_proofs
  Zip ZipSpec Zip_proofs Zip2_proofs Zip3_proofs Tar Again.
From Coq Require Import Sorted.

Lemma kept_nil {CK DT ST} (c : option (eckpt CK DT)) : kept c (@nil (eckpt CK DT * ST)) = c.
Proof. reflexivity. Qed.
Lemma kept_in {CK DT ST} (c : option (eckpt CK DT)) (log : list (eckpt CK DT * ST)) : log <> [] ->
  exists c1 s1 l, kept c log = Some c1 /\ In (c1, s1) log /\ rev (map fst log) = c1 :: l.
Proof.
  intros H. unfold kept. rewrite <- map_rev. destruct (rev log) as [|[c1 s1] r] eqn:E.
  - exfalso. apply H. rewrite <- (rev_involutive log), E. reflexivity.
  - exists c1, s1, (map fst r). splits; auto. rewrite in_rev, E. left. reflexivity.
Qed.

Lemma firstn_S_nth {X} (l : list X) i a : nth_error l i = Some a -> firstn (S i) l = firstn i l ++ [a].
Proof.
  revert i. induction l as [|b l IH]; intros [|i] H; try discriminate.
  - injection H as <-. reflexivity.
  - cbn [firstn app]. f_equal. apply IH. exact H.
Qed.

(** ** Zip *)
Section ZipAgain.
  Context (A : bytes) (C : codec) (fuel0 : nat) (pol : bool) (ms : list zmember).
  Context {SK : sink} (L : sink_laws SK) (SV : saver (zck C fuel0) unit) (view0 : kl_loc L -> option node) (B : nat).
  Hypothesis Hvalid : storable L (zitems ms).
  Hypothesis Hms : Forall (mgood A C fuel0 pol B) ms.

  Definition len (m : zmember) : nat := length (zm_data m).
  Definition rank (p : pos) : nat := (list_sum (map len (firstn (fst p) ms)) + snd p)%nat.
  Definition within (p : pos) : Prop := exists m, nth_error ms (fst p) = Some m /\ (snd p <= len m)%nat.

  Lemma sum_mono i j : (i <= j)%nat -> (list_sum (map len (firstn i ms)) <= list_sum (map len (firstn j ms)))%nat.
  Proof.
    intros H. rewrite <- (firstn_skipn i (firstn j ms)), firstn_firstn, Nat.min_l by exact H.
    rewrite map_app, list_sum_app. lia.
  Qed.
  Lemma sum_S i m : nth_error ms i = Some m -> list_sum (map len (firstn (S i) ms)) = (list_sum (map len (firstn i ms)) + len m)%nat.
  Proof. intros H. rewrite (firstn_S_nth _ _ _ H), map_app, list_sum_app. cbn. lia. Qed.
  Lemma rank_lt p q : within p -> plt p q -> (rank p < rank q)%nat.
  Proof.
    intros (m & Hm & Hs) (Hq & [Hlt|[Heq Hlt]]); unfold rank.
    - pose proof (sum_mono (S (fst p)) (fst q) ltac:(lia)) as H. rewrite (sum_S _ _ Hm) in H. lia.
    - rewrite Heq. lia.
  Qed.
  Lemma rank_le p : within p -> (rank p <= list_sum (map len ms))%nat.
  Proof.
    intros (m & Hm & Hs). unfold rank. pose proof (sum_mono (S (fst p)) (length ms)) as H.
    rewrite (sum_S _ _ Hm), firstn_all in H.
    assert (fst p < length ms)%nat by (apply nth_error_Some; congruence). specialize (H ltac:(lia)). lia.
  Qed.

  (** what is known about the checkpoint a run is resumed from *)
  Definition cok (st : k_st SK) (c : option (zeck C fuel0)) : Prop :=
    match c with
    | None => True
    | Some ck => zgood A C fuel0 pol ms SK L view0 B st ck /\ tight A C fuel0 pol ms B ck /\
        exists sc m, ec_src ck = Some sc /\ nth_error ms (cidx C fuel0 ck) = Some m /\ gck A C fuel0 pol B m sc
    end.
  Definition crank (c : option (zeck C fuel0)) : nat := match c with None => 0%nat | Some ck => rank (smeas C fuel0 ck) end.

  Lemma gck_len m sc : gck A C fuel0 pol B m sc -> 0 <= ck_off sc <= zlen (zm_data m).
  Proof.
    unfold gck. destruct (is_store m); intros (LL & F & Hc); rewrite <- (vf_prj _ _ _ _ _ _ _ _ _ _ F); exact (lw_ck_len _ _ _ LL _ Hc).
  Qed.
  Lemma cok_within st ck : cok st (Some ck) -> within (smeas C fuel0 ck).
  Proof.
    intros (_ & _ & sc & m & H1 & H2 & H3). exists m. unfold smeas. rewrite H1. cbn [fst snd]. split; [exact H2|].
    pose proof (gck_len m sc H3). unfold len, zlen in *. lia.
  Qed.

  (** one run that was stopped *)
  Lemma stopped_step c io fuel st v out :
    (forall i m, nth_error ms i = Some m -> io_ok A pol m (io i)) ->
    kl_inv L st -> outside L (zitems ms) view0 st -> cok st c ->
    out = zip_resume SK C fuel0 SV (zfiles ms) io fuel c st v ->
    kl_inv L (zo_sink _ _ _ _ out) /\ outside L (zitems ms) view0 (zo_sink _ _ _ _ out) /\
    (zo_log _ _ _ _ out <> [] ->
       cok (zo_sink _ _ _ _ out) (kept c (zo_log _ _ _ _ out)) /\ (crank c < crank (kept c (zo_log _ _ _ _ out)))%nat) /\
    (zo_log _ _ _ _ out = [] -> cok (zo_sink _ _ _ _ out) c) /\
    (forall l, zo_res _ _ _ _ out = Ok l -> l = zlisting (zfiles ms) /\ extracted L (zitems ms) view0 (zo_sink _ _ _ _ out)) /\
    zo_res _ _ _ _ out <> Panic.
  Proof.
    intros Hio Hi Ho Hc Hout.
    assert (Hpre : match c with Some ck => Forall (zgood A C fuel0 pol ms SK L view0 B st) [ck] /\ csorted C fuel0 ms [ck] | None => True end).
    { destruct c as [ck|]; [|exact Logic.I]. destruct Hc as (Hg & _). split; [constructor; [exact Hg|constructor]|]. repeat constructor. }
    destruct (zip_resume_ok A C fuel0 pol ms SK L SV view0 B Hvalid Hms c [] io fuel st v out Hio Hi Ho Hpre Hout)
      as [[R1 R2 R3 R4 R5 _ _ R8 _ _ R10] _].
    splits; auto.
    - intros Hne. destruct (kept_in c _ Hne) as (c1 & s1 & l1 & K1 & K2 & K3). rewrite K1.
      rewrite Forall_forall in R5. destruct (R5 _ K2) as (m & k & w & sc & G1 & G2 & G3 & G4 & (G5 & G5' & _) & _).
      assert (Hc1 : cok (zo_sink _ _ _ _ out) (Some c1)).
      { split; [|split; [exact G5|exists sc, m; auto]]. rewrite Forall_forall in R3. apply R3. apply in_or_app. left. rewrite <- in_rev. exact (in_map fst _ (c1, s1) K2). }
      split; [exact Hc1|]. cbn [crank].
      destruct c as [ck|].
      + destruct Hc as (Hg & Ht & Hsc). pose proof (R10 Hsc) as R. rewrite Forall_forall in R.
        apply rank_lt; [|exact (R _ K2)]. apply (cok_within st). split; [exact Hg|]. auto.
      + rewrite Forall_forall in R10. pose proof (R10 _ K2) as (Hlt & _). cbn [fst] in Hlt. unfold rank. exact (Nat.lt_le_trans _ _ _ Hlt (Nat.le_add_l _ _)).
    - intros Hnil. rewrite Hnil in R3. destruct c as [ck|]; [|exact Logic.I]. destruct Hc as (Hg & Ht & Hsc).
      split; [inversion R3; assumption|]. auto.
    - intros l Hl. rewrite Hl in R8. destruct R8 as (-> & Hset & _). split; [reflexivity|]. apply settled_extracted.
      unfold zitems at 2. rewrite map_length. exact Hset.
    - intros Hl. rewrite Hl in R8. exact R8.
  Qed.

  (** safety: whatever happens *)
  Lemma again_safe io fuel : (forall k i m, nth_error ms i = Some m -> io_ok A pol m (io k i)) ->
    forall left k c st v k' out,
    kl_inv L st -> outside L (zitems ms) view0 st -> cok st c ->
    zip_again SK C fuel0 SV (zfiles ms) io fuel left k c st v = Some (k', out) ->
    (forall l, zo_res _ _ _ _ out = Ok l -> l = zlisting (zfiles ms) /\ extracted L (zitems ms) view0 (zo_sink _ _ _ _ out)) /\
    zo_res _ _ _ _ out <> Panic.
  Proof.
    intros Hio. induction left as [|left IH]; intros k c st v k' out Hi Ho Hc; cbn [zip_again]; cbv zeta;
      destruct (stopped_step c (io k) fuel st v _ (Hio k) Hi Ho Hc eq_refl) as (H1 & H2 & H3 & H4 & H5 & H6);
      set (o := zip_resume SK C fuel0 SV (zfiles ms) (io k) fuel c st v) in *;
      destruct (zo_res SK C fuel0 SV o) as [l|[]| |] eqn:Hres; try discriminate;
      try (injection 1 as <- <-; rewrite Hres; split; [exact H5|discriminate]); try (exfalso; exact (H6 eq_refl)).
    apply IH; auto.
    destruct (zo_log _ _ _ _ o) as [|x log] eqn:Hlog; [exact (H4 eq_refl)|].
    apply H3. discriminate.
  Qed.

  (** liveness: nothing fails, but the save consumer may stop as often as it likes *)
  Lemma again_ends io fuel : (forall k i m, nth_error ms i = Some m -> io_ok A pol m (io k i)) ->
    (forall k i, io_good (io k i)) -> saver_noerr SV -> (B < fuel)%nat -> Forall (zsound C fuel0 L) ms -> existsb zencrypted ms = false ->
    forall left k c st v,
    kl_inv L st -> outside L (zitems ms) view0 st -> kl_clean L st -> cok st c ->
    (list_sum (map len ms) <= crank c + left)%nat ->
    exists k' out, zip_again SK C fuel0 SV (zfiles ms) io fuel left k c st v = Some (k', out) /\
      (crank c + k' <= list_sum (map len ms) + k)%nat /\ (saver_goes_on SV -> k' = k) /\
      zo_res _ _ _ _ out = Ok (zlisting (zfiles ms)).
  Proof.
    intros Hio Hgood Hne HB Hsound Henc.
    assert (Henc' : forall n, existsb enc (skipn n ms) = false).
    { intros n. rewrite <- (firstn_skipn n ms) in Henc. change (existsb enc (firstn n ms ++ skipn n ms) = false) in Henc.
      rewrite existsb_app in Henc. apply orb_false_iff in Henc. tauto. }
    induction left as [|left IH]; intros k c st v Hi Ho Hcl Hc Hle; cbn [zip_again]; cbv zeta;
      destruct (stopped_step c (io k) fuel st v _ (Hio k) Hi Ho Hc eq_refl) as (H1 & H2 & H3 & H4 & H5 & H6);
      set (o := zip_resume SK C fuel0 SV (zfiles ms) (io k) fuel c st v) in *;
      (assert (Hpre : match c with Some ck => Forall (zgood A C fuel0 pol ms SK L view0 B st) [ck] /\ csorted C fuel0 ms [ck] | None => True end);
       [destruct c as [ck|]; [|exact Logic.I]; destruct Hc as (Hg & _); split; [constructor; [exact Hg|constructor]|repeat constructor]|]);
      destruct (zip_resume_ok A C fuel0 pol ms SK L SV view0 B Hvalid Hms c [] (io k) fuel st v o (Hio k) Hi Ho Hpre eq_refl) as [_ Hlive];
      (assert (Hrl : run_live A C fuel0 pol ms SK L SV B c (io k) fuel);
       [split; [split; [exact Hne|split; [exact HB|]]|destruct c as [ck|]; [exact (proj1 (proj2 Hc))|exact Logic.I]];
        intros i m _ Hn _; rewrite Forall_forall in Hsound; destruct (Hsound m (nth_error_In _ _ Hn)) as [S1 S2]; splits; auto|]);
      destruct (Hlive Hrl Hcl) as [(Hs & Hres & Hcl' & Hlog)|Hok];
      try (rewrite Henc' in Hok; destruct Hok as [Hok _]; rewrite Hok; exists k, o; splits; auto;
           pose proof (rank_le (smeas C fuel0 (match c with Some ck => ck | None => MkEck None 0 None None None end))) as Hr;
           destruct c as [ck|]; cbn [crank] in *; [specialize (Hr (cok_within st ck Hc))|]; lia);
      destruct (H3 Hlog) as (Hc' & Hlt); rewrite Hres.
    - exfalso. destruct (kept c (zo_log _ _ _ _ o)) as [c1|] eqn:Hk; [|cbn [crank] in Hlt; lia].
      pose proof (rank_le _ (cok_within _ c1 Hc')). cbn [crank] in *. lia.
    - destruct (IH (S k) _ _ (zo_sv _ _ _ _ o) H1 H2 Hcl' Hc' ltac:(lia)) as (k' & out & E1 & E2 & E3 & E4).
      exists k', out. splits; auto; [lia|]. intros Hgo. contradiction.
  Qed.
End ZipAgain.
