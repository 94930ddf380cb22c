(** Props_later.v -- property C72: the checkpoints of one run never go backwards. *)
From Verif Require Import Base Base_proofs Source Contract Seek Decomp CodecSpec Drive SpoilSpec Stack_proofs Copier Sink SinkSpec LaterSpec
  Zip ZipSpec Settle_proofs Zip_proofs Zip2_proofs Zip3_proofs ExCodec ExSink ExZip Props_zip2 Props_again.
From Coq Require Import Sorted QArith.
Open Scope Z_scope.

Lemma sorted_rev {A} (R : A -> A -> Prop) (l : list A) : StronglySorted (fun a b => R b a) l -> StronglySorted R (rev l).
Proof.
  induction 1 as [|a l Hl IH Ha]; cbn [rev]; [constructor|]. clear Hl.
  assert (Ha' : Forall (fun b => R b a) (rev l)) by (apply Forall_rev; exact Ha). clear Ha.
  induction IH as [|b l' H1 IH2 H2]; cbn [app]; [repeat constructor|].
  inversion Ha' as [|? ? G1 G2]; subst. constructor; [apply IH2; exact G2|].
  apply Forall_app. split; [exact H2|]. constructor; [exact G1|constructor].
Qed.
Lemma sorted_app_l {A} (R : A -> A -> Prop) (l l' : list A) : StronglySorted R (l ++ l') -> StronglySorted R l.
Proof.
  induction l as [|a l IH]; cbn [app]; intros H; [constructor|]. inversion H as [|? ? H1 H2]; subst.
  constructor; [auto|]. apply Forall_app in H2. apply H2.
Qed.
Lemma sorted_impl {A} (R R' : A -> A -> Prop) (P : A -> Prop) (l : list A) : (forall a b, P a -> P b -> R a b -> R' a b) ->
  Forall P l -> StronglySorted R l -> StronglySorted R' l.
Proof.
  intros H HP. induction 1 as [|a l Hl IH Ha]; [constructor|]. inversion HP as [|? ? P1 P2]; subst. constructor; [auto|].
  rewrite Forall_forall in *. intros b Hb. apply H; auto.
Qed.

Lemma sorted_map {A B} (R : B -> B -> Prop) (f : A -> B) (l : list A) : StronglySorted (fun a b => R (f a) (f b)) l -> StronglySorted R (map f l).
Proof. induction 1 as [|a l H1 IH H2]; cbn [map]; constructor; auto. apply Forall_map. exact H2. Qed.

(** C72, zip. The checkpoints given to Save in one run, in that order, do not go back;
    nor before the checkpoint that the run was started from. *)
Theorem C72_zip_checkpoints_advance A C fuel0 pol SK (L : sink_laws SK) ms st0 mem SV c io fuel st out :
  zarchive A C fuel0 pol L ms -> kl_inv L st0 -> zrun A C fuel0 pol ms L st0 mem SV c io fuel st out ->
  StronglySorted not_before (map fst (zo_log _ _ _ _ out)) /\
  (forall ck, c = Some ck -> Forall (not_before ck) (map fst (zo_log _ _ _ _ out))).
Proof.
  intros HA Hi Hrun.
  destruct (all_good A C fuel0 pol ms (za_ok _ _ _ _ _ _ HA)) as (B & HB).
  destruct (zrun_ok A C fuel0 pol ms L st0 mem SV B HA Hi HB _ _ _ _ _ Hrun) as (earlier & [_ _ _ R1 R2 _ R3 _ _ _] & _ & _ & Hck & _).
  set (P := fun cc : zeck C fuel0 => ec_index cc = Z.of_nat (cidx C fuel0 cc) /\ wrote cc = Z.of_nat (ckw C fuel0 ms cc) /\
     exists m, nth_error ms (cidx C fuel0 cc) = Some m /\ zm_via C fuel0 m <> None).
  assert (HP : Forall P (map fst (zo_log _ _ _ _ out))).
  { apply Forall_map. eapply Forall_impl; [|exact R2]. intros [cc s] (m & k & w & sc & G1 & G2 & G3 & _ & _ & _ & _ & G4 & G5 & _). cbn [fst] in *.
    unfold P. split; [exact (proj1 (proj1 G5))|]. split; [unfold wrote; rewrite G3; cbn; congruence|]. exists m. split; [exact G1|congruence]. }
  assert (Hle : forall a b, P a -> P b -> ple (cpos C fuel0 ms a) (cpos C fuel0 ms b) -> not_before a b).
  { intros a b (A1 & A2 & _) (B1 & B2 & _). unfold ple, cpos, not_before. cbn [fst snd]. lia. }
  split.
  - apply (sorted_impl (fun a b => ple (cpos C fuel0 ms a) (cpos C fuel0 ms b)) not_before P); auto.
    rewrite <- (rev_involutive (map fst (zo_log _ _ _ _ out))). apply sorted_rev.
    exact (sorted_app_l _ _ _ R1).
  - intros ck ->. apply Forall_map. cbn [start_of] in R3. rewrite Forall_map in HP. rewrite Forall_forall in *. intros cs Hin.
    specialize (R3 _ Hin). specialize (HP _ Hin). destruct Hck as (_ & K1 & K2). destruct HP as (A1 & A2 & m & A3 & A4).
    unfold not_before. unfold ple, cpos in R3. cbn [fst snd] in R3.
    destruct R3 as [R3|[R3 R4]]; [left; lia|right]. split; [lia|].
    destruct K2 as [K2|(m' & w & K2 & K3)]; [unfold wrote at 1; rewrite K2, A2; lia|].
    rewrite A2. rewrite <- R3, K2 in A3. injection A3 as ->.
    assert (Hw : ckw C fuel0 ms ck = w).
    { unfold ckw, ck_woff. rewrite K2, K3. destruct (zm_via C fuel0 m); [cbn; apply Nat2Z.id|contradiction]. }
    unfold wrote at 1. rewrite K3. cbn. lia.
Qed.

(** ... and their Progress neither, if the declared sizes are right. *)
Theorem C72_zip_checkpoint_progress A C fuel0 pol SK (L : sink_laws SK) ms st0 mem SV c io fuel st out :
  zarchive A C fuel0 pol L ms -> kl_inv L st0 -> zrun A C fuel0 pol ms L st0 mem SV c io fuel st out ->
  Forall honest ms -> 0 < total ms < two63 ->
  StronglySorted progress_le (map (fun cs => ec_prog (fst cs)) (zo_log _ _ _ _ out)) /\
  Forall (fun cs => exists q, ec_prog (fst cs) = Some q /\ 0 <= q /\ q <= 1)%Q (zo_log _ _ _ _ out).
Proof.
  intros HA Hi Hrun Hh Ht.
  destruct (all_good A C fuel0 pol ms (za_ok _ _ _ _ _ _ HA)) as (B & HB).
  destruct (zrun_ok A C fuel0 pol ms L st0 mem SV B HA Hi HB _ _ _ _ _ Hrun) as (earlier & [_ _ _ R1 R2 _ _ _ _ _] & _).
  destruct (total ms) as [|p|p] eqn:Ep; try lia.
  assert (Hv : forall q, inbounds ms q -> frac ms q = Some (pval ms q # p)%Q).
  { intros q Hq. destruct (frac_val ms Hh ltac:(lia) q Hq) as (p' & E1 & E2). rewrite Ep in E1. injection E1 as <-. exact E2. }
  set (P := fun cc : zeck C fuel0 => ec_prog cc = Some (pval ms (cpos C fuel0 ms cc) # p)%Q /\ inbounds ms (cpos C fuel0 ms cc)).
  assert (HP : Forall P (map fst (zo_log _ _ _ _ out))).
  { apply Forall_map. eapply Forall_impl; [|exact R2]. intros [cc s] (m & k & w & sc & G1 & G2 & G3 & _ & _ & G6 & G7 & G4 & G5 & _). cbn [fst] in *.
    unfold P, cpos. rewrite G4. split; [rewrite G6; apply Hv; exact G7|exact G7]. }
  split.
  - rewrite <- map_map with (f := fst) (g := ec_prog).
    assert (Hs : StronglySorted (fun a b : zeck C fuel0 => progress_le (ec_prog a) (ec_prog b)) (map fst (zo_log _ _ _ _ out))).
    { apply (sorted_impl (fun a b => ple (cpos C fuel0 ms a) (cpos C fuel0 ms b)) _ P); auto.
      - intros a b [A1 A2] [B1 B2] Hab. unfold progress_le. rewrite A1, B1. pose proof (pval_mono ms Hh _ _ A2 Hab). unfold Qle. cbn [Qnum Qden].
        apply Z.mul_le_mono_nonneg_r; lia.
      - rewrite <- (rev_involutive (map fst (zo_log _ _ _ _ out))). apply sorted_rev. exact (sorted_app_l _ _ _ R1). }
    exact (sorted_map _ _ _ Hs).
  - assert (Hq : forall cc, P cc -> exists q, (ec_prog cc = Some q /\ 0 <= q /\ q <= 1)%Q).
    { intros cc [P1 P2]. eexists. split; [exact P1|]. pose proof (pval_bounds ms Hh _ P2) as Hb. rewrite Ep in Hb. unfold Qle. cbn. lia. }
    rewrite Forall_map in HP. eapply Forall_impl; [|exact HP]. intros cs Hcs. exact (Hq _ Hcs).
Qed.

(** A run from a checkpoint that was given to Save: its checkpoints are past that one. *)
Theorem C72_zip_resume_gets_past A C fuel0 pol SK (L : sink_laws SK) ms st0 SV ck io fuel st out c1 s e :
  zarchive A C fuel0 pol L ms -> kl_inv L st0 -> zrun A C fuel0 pol ms L st0 false SV (Some ck) io fuel st out ->
  In (c1, s) (zo_log _ _ _ _ out) -> ec_entry c1 = Some e -> kl_of L e <> None -> past ck c1.
Proof.
  intros HA Hi Hrun Hin He Hof.
  destruct (all_good A C fuel0 pol ms (za_ok _ _ _ _ _ _ HA)) as (B & HB).
  destruct (zrun_ok A C fuel0 pol ms L st0 false SV B HA Hi HB _ _ _ _ _ Hrun) as (earlier & [_ _ _ R1 R2 _ R3 _ _ _ R4] & Hck & _ & Hck2 & _).
  destruct (Hck eq_refl) as (T & _ & _ & Hsrc). destruct Hck2 as (_ & K1 & K2).
  rewrite Forall_forall in R2. destruct (R2 _ Hin) as (m & k & w & sc & G1 & G2 & G3 & G4 & (_ & _ & G5) & _ & _ & G6 & G7 & _).
  destruct Hsrc as (m0 & sc0 & Es & T2 & T3 & T1). change (wrote ck <= ck_off sc0) in T1.
  assert (F : Forall (fun cs => plt (smeas C fuel0 ck) (smeas C fuel0 (fst cs))) (zo_log _ _ _ _ out)).
  { cbn beta iota in R4. apply R4. exists sc0, m0. auto. }
  rewrite Forall_forall in F. specialize (F _ Hin). unfold plt, smeas in F. cbn [fst snd] in F. rewrite Es, G4 in F.
  assert (I1 : ec_index c1 = Z.of_nat (cidx C fuel0 c1)) by exact (proj1 (proj1 G7)).
  assert (W1 : wrote c1 = Z.of_nat w) by (unfold wrote; rewrite G3; reflexivity).
  assert (O1 : ck_off sc = Z.of_nat w).
  { apply G5. unfold located. rewrite G3 in He. injection He as <-. rewrite kl_of_woff in Hof. exact Hof. }
  unfold past. rewrite W1, I1, K1. rewrite O1 in F. lia.
Qed.

(** A consumer that saves whenever it can: several checkpoints in one run, and in one resumed from the first of them. *)
Definition ex_always {CK} : saver CK unit := MkSaver unit (fun v _ => (v, true)) (fun v _ => (v, inl false)).
Definition el_run c st := zip_resume (crashing map_sink) exC exF ex_always (zfiles ea_ms) ea_io 50 c st tt.
Definition el_all := el_run None (map_empty, None).
Definition el_ck : option (zeck exC exF) := hd_error (map fst (zo_log _ _ _ _ el_all)).
Definition el_more := zip_resume map_sink exC exF ex_always (zfiles ea_ms) ea_io 50 el_ck (fst (zo_sink _ _ _ _ el_all)) tt.
Lemma el_life : zlife exA exC exF false ea_ms map_laws map_empty false (fst (zo_sink _ _ _ _ el_all)) (rev (map fst (zo_log _ _ _ _ el_all))).
Proof. eapply ZlFresh; [apply ZlStart|exact ea_ios|reflexivity]. Qed.
Lemma el_zrun : zrun exA exC exF false ea_ms map_laws map_empty false ex_always el_ck ea_io 50 (fst (zo_sink _ _ _ _ el_all)) el_more.
Proof.
  assert (H : option_map ec_index el_ck = Some 2) by (vm_compute; reflexivity).
  destruct el_ck as [c|] eqn:Hc; [|discriminate]. pose proof el_life as Hl. unfold el_more. rewrite Hc.
  unfold el_ck in Hc. destruct (map fst (zo_log _ _ _ _ el_all)) as [|c' rest]; [discriminate|]. injection Hc as ->.
  cbn [rev] in Hl. eapply (ZrResume _ _ _ _ _ _ _ _ _ _ (rev rest) c []); [exact Hl|exact ea_ios|reflexivity].
Qed.
Example C72_zip_example : zarchive exA exC exF false map_laws ea_ms /\
  map (fun cs => (ec_index (fst cs), wrote (fst cs), ec_prog (fst cs))) (zo_log _ _ _ _ el_all) =
    [(2, 4, Some (9 # 18)%Q); (2, 6, Some (11 # 18)%Q); (3, 4, Some (15 # 18)%Q); (3, 6, Some (17 # 18)%Q)] /\
  option_map (fun c => (ec_index c, wrote c)) el_ck = Some (2, 4) /\
  map (fun cs => (ec_index (fst cs), wrote (fst cs))) (zo_log _ _ _ _ el_more) = [(3, 4); (3, 6)] /\
  Forall honest ea_ms /\ 0 < total ea_ms < two63.
Proof.
  split; [exact ea_archive|]. split; [vm_compute; reflexivity|]. split; [vm_compute; reflexivity|]. split; [vm_compute; reflexivity|].
  split; [|split; reflexivity]. apply Forall_forall. intros m Hm. unfold honest, two63.
  destruct Hm as [<-|[<-|[<-|[<-|[<-|[]]]]]]; cbn [zm_data zm_file zf_usize ex_m0 ex_m1 ex_m2 ea_m3 ex_m4]; split; vm_compute; congruence.
Qed.
