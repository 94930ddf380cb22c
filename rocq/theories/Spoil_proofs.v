(** Spoil_proofs.v -- resuming a decompressing source from a checkpoint that
    has lost a part of its content. *)
From Verif Require Import Base Base_proofs Source Seek Decomp CodecSpec Contract Seek_proofs Decomp_proofs.

Section Spoil.
  Context (C : codec) (cfg : dcfg) (I : source) (fuel0 : nat).
  Context (ID : bytes) (itm : gerr) (LI : laws I ID itm).
  Context (N : nat) (D : bytes) (tm : gerr).
  Hypothesis HB : byte_law LI.
  Hypothesis Hrun : crun C N (cd_init C) ID itm = Some (D, tm).
  Hypothesis HfuelN : (N < fuel0)%nat.
  Hypothesis HfuelI : (lw_bound LI < fuel0)%nat.
  Hypothesis Hsav : saves_ok C.
  Hypothesis Hin : lw_polite LI = true \/ saves_before_end C N (cd_init C) ID.
  Hypothesis Htm : tm <> EReadyToSave.
  Hypothesis Hpull : starts_by_reading C.

  Notation L := (dcomp_laws C cfg I fuel0 ID itm LI N D tm HB Hrun HfuelN HfuelI Hsav Hin Htm Hpull).

  Lemma fresh_lands (P : Prop) s s' r : dc_wf C I ID itm LI s -> dc_quiet C I ID itm LI s ->
    (P -> lw_clean LI (ds_in C I s)) ->
    dcomp_fresh C cfg I fuel0 s = (s', r) ->
    match r with
    | Ok z => 0 <= z <= 0 /\ (exists m, lw_at L s' (Z.to_nat z) m) /\ lw_quiet L s' /\ (P -> lw_clean L s')
    | Err _ => ~ P \/ (D = [] /\ tm <> EEof)
    | _ => False
    end.
  Proof.
    intros Hw Hq Hc Hf.
    pose proof (fresh_ok C cfg I fuel0 ID itm LI N D tm HB Hrun HfuelN HfuelI Hin Hpull s s' r Hw Hf) as H.
    destruct r as [z|e| |]; try exact H.
    - destruct H as (-> & m & H1 & H2 & H3). split; [lia|]. split; [exists m; exact H1|]. split; [exact (H2 Hq)|]. intros Hx. exact (H3 (Hc Hx)).
    - destruct H as [H|H]; [left; auto|right; exact H].
  Qed.

  Lemma lost_data_lands c' : ck_data c' = None -> lands L (Some c') 0 0.
  Proof.
    intros Hn s s' r Hw Hq Hr. destruct c' as [off da]. cbn in Hn. subst da.
    apply (fresh_lands (lw_clean L s) s s' r Hw Hq); [|exact Hr]. intros [H _]. exact H.
  Qed.

  Lemma dcomp_lands c c' dk dk' : dc_ck C I ID itm LI N D tm c -> ck_data c = Some dk -> ck_data c' = Some dk' ->
    dk_off C I dk' = dk_off C I dk \/ cf_own_off cfg = false -> dk_roff C I dk' = dk_roff C I dk -> dk_woff C I dk' = dk_woff C I dk ->
    (dk_snap C I dk' = dk_snap C I dk \/ dk_snap C I dk' = None) ->
    lands LI (dk_src C I dk') 0 (dk_roff C I dk) ->
    let off := match dk_snap C I dk' with Some _ => ck_off c | None => 0 end in
    lands L (Some c') off off.
  Proof.
    intros (dk0 & ic & roff & d & n & rest & E1 & E2 & E3 & E4 & E5 & E6 & E7 & E8 & E9 & E10 & E11 & E12 & E13 & E14) Hdk Hdk' H1 H2 H3 H4 HL.
    rewrite Hdk in E1. injection E1 as <-. cbv zeta.
    intros s s' r Hwf Hqs. destruct c' as [off' da']. cbn [ck_data] in Hdk'. subst da'.
    change (s_resume (dcomp_source C cfg I fuel0) s) with (dcomp_resume C cfg I fuel0 s). cbn [dcomp_resume].
    destruct Hwf as [Hwf Hq0]. destruct Hqs as [Hqi Hqs].
    assert (Hcl : lw_clean L s -> lw_clean LI (ds_in C I s)) by (intros [H _]; exact H).
    destruct (s_resume I (ds_in C I s) (dk_src C I dk')) as [i1 r1] eqn:Hr.
    pose proof (HL _ _ _ Hwf Hqi Hr) as Hrs.
    destruct r1 as [z|e| |]; [| |destruct Hrs|destruct Hrs].
    2:{ intros [= <- <-]. destruct Hrs as [Hrs|[G1 G2]]; [left; tauto|right].
        eapply empty_input; eassumption. }
    destruct Hrs as (Hz & (m & Hat) & Hq & Hc). rewrite H2 in *. rewrite E8 in *.
    destruct (discard_by_read I (dcomp_onsave C I) fuel0 i1 (ds_sck C I s, ds_sr C I s) (Z.of_nat roff - z)) as [[i2 [sck2 sr2]] r2] eqn:Hd.
    pose proof (lw_at_len _ _ _ LI _ _ _ Hat) as [_ Hmb].
    pose proof (discard_ok LI _ (dcomp_onsave C I) (fun _ => True) fuel0 i1 _ _ _ m i2 (sck2, sr2) r2
      ltac:(intros; exfalso; tauto) Logic.I Hat ltac:(lia) Hd) as (_ & D2 & D3).
    destruct (D2 Hq) as [Hq2 Hk2]. injection Hk2 as -> ->.
    destruct r2 as [u|e| |]; [| |destruct D3|destruct D3].
    - destruct D3 as (m' & Hat2 & _ & Hc2). replace (z <=? Z.of_nat roff) with true by lia.
      replace (Z.to_nat z + Z.to_nat (Z.of_nat roff - z))%nat with roff in Hat2 by lia.
      destruct (dk_snap C I dk') as [dd|] eqn:Hsn.
      + destruct H4 as [H4|H4]; [|discriminate]. rewrite E11 in H4. injection H4 as ->. rewrite H3, E4.
        replace (if cf_own_off cfg then dk_off C I dk' else ck_off c) with (ck_off c)
          by (destruct H1 as [H1|H1]; [rewrite H1, E3; destruct (cf_own_off cfg); reflexivity|rewrite H1; reflexivity]).
        intros [= <- <-]. split; [lia|]. split; [|split].
        * exists (n + (length D - Z.to_nat (ck_off c)))%nat.
          exists (sr_new C d (Z.of_nat roff) (ck_off c)). cbn [ds_in ds_sr ds_off ds_sck]. splits; auto; [lia|].
          left. exists n, true. split; [|reflexivity]. exists roff, m', rest. cbn [sr_new sr_roff sr_woff sr_fail sr_d sr_pend sr_want app].
          unfold zlen in E2. splits; auto; try lia.
        * split; [exact Hq2|]. cbn. intros sr0 [= <-]. reflexivity.
        * intros Hx. split; [cbn; auto|]. cbn. intros sr0 e0 [= <-]. discriminate.
      + destruct (s_resume I i2 None) as [i3 r3] eqn:Hr3.
        pose proof (lw_resume _ _ _ LI _ None _ _ (lw_at_wf _ _ _ LI _ _ _ Hat2) ltac:(discriminate) Hr3) as Hrs3.
        destruct r3 as [z3|e| |]; [| |destruct Hrs3|destruct Hrs3].
        * destruct Hrs3 as (_ & m3 & Hat3 & Hq3 & Hc3). apply (fresh_lands (lw_clean L s)).
          -- split; [exact (lw_at_wf _ _ _ LI _ _ _ Hat3)|]. intros _. cbn. auto.
          -- split; [cbn; auto|]. cbn. discriminate.
          -- cbn. auto.
        * intros [= <- <-]. destruct Hrs3 as [Hrs3|[G1 G2]]; [left; tauto|right].
          eapply empty_input; eassumption.
    - intros [= <- <-]. left. intros Hx. destruct D3 as (o2 & m2 & _ & _ & _ & _ & [D3|(_ & _ & D4 & D5)]); [tauto|].
      destruct E10 as [Hp|Hp]; [|lia]. assert (lw_polite LI = false) by (apply D5; lia). congruence.
  Qed.

  Lemma dcomp_spoil (R : sckpt (s_ck I) -> sckpt (s_ck I) -> Prop) :
    (forall ic ic', lw_ck LI ic -> R ic ic' -> lands LI (Some ic') 0 (ck_off ic)) ->
    forall c c' : sckpt (dck C I), dc_ck C I ID itm LI N D tm c ->
    (ck_data c' = None \/
     exists dk dk', ck_data c = Some dk /\ ck_data c' = Some dk' /\
       (dk_off _ _ dk' = dk_off _ _ dk \/ cf_own_off cfg = false) /\ dk_roff _ _ dk' = dk_roff _ _ dk /\ dk_woff _ _ dk' = dk_woff _ _ dk /\
       (dk_snap _ _ dk' = dk_snap _ _ dk \/ dk_snap _ _ dk' = None) /\
       (dk_src _ _ dk' = None \/
        exists ic ic', dk_src _ _ dk = Some ic /\ dk_src _ _ dk' = Some ic' /\ (ic' = ic \/ R ic ic'))) ->
    lands L (Some c') 0 (ck_off c) /\
    ((exists dk d, ck_data c' = Some dk /\ dk_snap _ _ dk = Some d) -> lands L (Some c') (ck_off c) (ck_off c)).
  Proof.
    intros HR c c' Hc Hx. pose proof Hc as (dk0 & ic & roff & d & n & rest & E1 & E2 & E3 & E4 & E5 & E6 & E7 & E8 & _).
    destruct Hx as [Hx|(dk & dk' & S1 & S2 & S3 & S4 & S5 & S6 & S7)].
    { split; [|intros (dk & d1 & K & _); congruence].
      eapply lands_weaken; [apply lost_data_lands; exact Hx|lia|lia]. }
    rewrite S1 in E1. injection E1 as <-.
    assert (HL : lands LI (dk_src C I dk') 0 (dk_roff C I dk)).
    { destruct S7 as [S7|(ic0 & ic' & G1 & G2 & G3)].
      - rewrite S7. eapply lands_weaken; [apply lands_genuine; discriminate|lia|lia].
      - rewrite E5 in G1. injection G1 as <-. rewrite G2. pose proof (lw_ck_len _ _ _ LI _ E6).
        destruct G3 as [-> | G3].
        + eapply lands_weaken; [apply lands_genuine; intros x [= <-]; exact E6|lia|lia].
        + eapply lands_weaken; [exact (HR ic ic' E6 G3)|lia|lia]. }
    pose proof (dcomp_lands c c' dk dk' Hc S1 S2 S3 S4 S5 S6 HL) as H.
    cbv zeta in H. split.
    - destruct (dk_snap C I dk'); (eapply lands_weaken; [exact H|lia|lia]).
    - intros (dk1 & d1 & K1 & K2). rewrite S2 in K1. injection K1 as <-. rewrite K2 in H. exact H.
  Qed.
End Spoil.
