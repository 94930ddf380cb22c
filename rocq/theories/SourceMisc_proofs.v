(** SourceMisc_proofs.v -- remaining lemmas about sources. *)
From Coq Require Import Lqa.
From Verif Require Import Base Base_proofs Source Seek Decomp CodecSpec Contract Seek_proofs Decomp_proofs Drive Stack_proofs SeekTrace_proofs.

Lemma tdata_app {CK} (a b : list (tev CK)) : tdata (a ++ b) = tdata a ++ tdata b.
Proof. unfold tdata. rewrite map_app, concat_app. reflexivity. Qed.

Lemma tr_ok_at {CK} D tm f late : forall (pre : list (tev CK)) ev post pos, tr_ok D tm f late pos (pre ++ ev :: post) ->
  tr_ok D tm f late (pos + length (tdata pre)) (ev :: post).
Proof.
  induction pre as [|e0 pre IH]; intros ev post pos H.
  - cbn [app] in H. change (tdata []) with (@nil byte). cbn [length]. rewrite Nat.add_0_r. exact H.
  - cbn [app] in H. destruct H as (_ & _ & _ & _ & _ & _ & H). apply IH in H.
    rewrite tdata_cons, app_length, Nat.add_assoc. exact H.
Qed.

(** *** Truncated input *)
Lemma crun_truncated C : forall n d inp D p,
  crun C n d inp EEof = Some (D, EEof) -> needs_all C n d inp -> (p < length inp)%nat ->
  exists D', crun C n d (firstn p inp) EEof = Some (D', EUnexpectedEof) /\ D' = firstn (length D') D.
Proof.
  induction n as [|n IH]; intros d inp D p Hrun Hall Hp; [discriminate|].
  cbn [crun needs_all] in *. destruct (cd_step C d) as [k|nn k|b bs d'|d'| |].
  - destruct inp as [|x inp]; [cbn in Hp; lia|]. destruct p as [|p]; cbn [firstn].
    + exists []. auto.
    + apply IH; auto. cbn in Hp. lia.
  - destruct (nn <=? length inp)%nat eqn:Hn; [|discriminate Hrun]. apply Nat.leb_le in Hn. rewrite firstn_length, Nat.min_l by lia.
    destruct (nn <=? p)%nat eqn:Hq.
    + apply Nat.leb_le in Hq. rewrite firstn_firstn, Nat.min_l by lia. rewrite skipn_firstn_comm.
      apply IH; auto. rewrite skipn_length. lia.
    + exists []. auto.
  - destruct (crun C n d' inp EEof) as [[o e]|] eqn:E; [|discriminate]. injection Hrun as <- ->.
    destruct (IH d' inp o p E Hall Hp) as (D' & H1 & H2). rewrite H1. exists ((b :: bs) ++ D'). split; [reflexivity|].
    rewrite app_length. change ((b :: bs ++ o)) with ((b :: bs) ++ o). rewrite firstn_split.
    rewrite (firstn_app_exact (length (b :: bs)) (b :: bs) o eq_refl), (skipn_app_exact (length (b :: bs)) (b :: bs) o eq_refl). congruence.
  - apply IH; auto.
  - subst inp. cbn in Hp. lia.
  - discriminate.
Qed.

(** *** Progress *)
Lemma seek_progress_mono data start size pol s o m s' o' m' : 0 <= size ->
  seek_at data start size pol s o m -> seek_at data start size pol s' o' m' -> (o <= o')%nat ->
  (seek_progress s <= seek_progress s')%Q.
Proof.
  intros Hsz ((_ & H1 & _) & H2 & H3 & _) ((_ & H1' & _) & H2' & H3' & _) Ho. unfold seek_progress. rewrite H1, H2, H1', H2'.
  destruct (size >? 0) eqn:Hs; [|lra].
  assert (Hp : (0 < inject_Z size)%Q) by (unfold Qlt; cbn; lia).
  apply Qle_shift_div_l; [exact Hp|].
  assert (Hx : (inject_Z (Z.of_nat o) / inject_Z size * inject_Z size == inject_Z (Z.of_nat o))%Q).
  { field. lra. }
  rewrite Hx. unfold Qle; cbn; lia.
Qed.

(** *** Checkpoints that a decompressing source cannot use *)
Section Fallback.
  Context (C : codec) (cfg : dcfg) (I : source) (fuel0 : nat).
  Context (ID : bytes) (itm : gerr) (LI : laws I ID itm).
  Context (N : nat) (D : bytes) (tm : gerr).
  Hypothesis HB : byte_law LI.
  Hypothesis Hrun : crun C N (cd_init C) ID itm = Some (D, tm).
  Hypothesis HfuelN : (N < fuel0)%nat.
  Hypothesis HfuelI : (lw_bound LI < fuel0)%nat.
  Hypothesis Hsav : saves_ok C.
  Hypothesis Hin : lw_polite LI = true \/ saves_before_end C N (cd_init C) ID.
  Hypothesis Htm : tm <> EReadyToSave.
  Hypothesis Hpull : starts_by_reading C.

  Notation L := (dcomp_laws C cfg I fuel0 ID itm LI N D tm HB Hrun HfuelN HfuelI Hsav Hin Htm Hpull).

  Lemma resume_fallback s x s' r :
    dc_wf C I ID itm LI s -> dc_quiet C I ID itm LI s ->
    (ck_data x = None \/
     exists dk, ck_data x = Some dk /\ (forall ic, dk_src C I dk = Some ic -> lw_ck LI ic) /\
       (dk_snap C I dk = None \/ dk_roff C I dk < match dk_src C I dk with Some ic => ck_off ic | None => 0 end)) ->
    dcomp_resume C cfg I fuel0 s (Some x) = (s', r) ->
    match r with
    | Ok z => z = 0 /\ exists m, lw_at L s' 0 m /\ (lw_clean LI (ds_in C I s) -> lw_clean L s')
    | Err _ => ~ lw_clean LI (ds_in C I s) \/ (D = [] /\ tm <> EEof) \/
        exists dk, ck_data x = Some dk /\ zlen ID <= dk_roff C I dk
    | _ => False
    end.
  Proof.
    intros Hwf Hqs Hkind.
    assert (Hfresh : forall s0 s1 r1, dc_wf C I ID itm LI s0 -> (lw_clean LI (ds_in C I s) -> lw_clean LI (ds_in C I s0)) ->
       dcomp_fresh C cfg I fuel0 s0 = (s1, r1) ->
       match r1 with
       | Ok z => z = 0 /\ exists m, lw_at L s1 0 m /\ (lw_clean LI (ds_in C I s) -> lw_clean L s1)
       | Err _ => ~ lw_clean LI (ds_in C I s) \/ (D = [] /\ tm <> EEof) \/
           exists dk, ck_data x = Some dk /\ zlen ID <= dk_roff C I dk
       | _ => False
       end).
    { intros s0 s1 r1 Hw Hc Hf.
      pose proof (fresh_ok C cfg I fuel0 ID itm LI N D tm HB Hrun HfuelN HfuelI Hin Hpull s0 s1 r1 Hw Hf) as H.
      destruct r1 as [z|e| |]; try exact H.
      - destruct H as (-> & m & H1 & H2 & H3). split; [reflexivity|]. exists m. split; [exact H1|]. intros Hx. exact (H3 (Hc Hx)).
      - destruct H as [H|H]; [left; auto|right; left; exact H]. }
    destruct x as [off [dk|]]; cbn [ck_data] in Hkind; cbn [dcomp_resume].
    2:{ apply Hfresh; auto. }
    destruct Hkind as [Hk|(dk' & Hk & Hic & Hbad)]; [discriminate|]. injection Hk as <-.
    destruct Hwf as [Hwf Hq0]. destruct Hqs as [Hqi Hqs].
    destruct (s_resume I (ds_in C I s) (dk_src C I dk)) as [i1 r1] eqn:Hr.
    pose proof (lw_resume _ _ _ LI _ _ _ _ Hwf Hic Hr) as Hrs.
    destruct r1 as [z|e| |]; [| |destruct Hrs|destruct Hrs].
    2:{ intros [= <- <-]. destruct Hrs as [Hrs|[H1 H2]]; [left; exact Hrs|right; left].
        eapply empty_input; eassumption. }
    destruct Hrs as (Hz & m & Hat & Hq & Hc).
    destruct (discard_by_read I (dcomp_onsave C I) fuel0 i1 (ds_sck C I s, ds_sr C I s) (dk_roff C I dk - z)) as [[i2 [sck2 sr2]] r2] eqn:Hd.
    pose proof (lw_at_len _ _ _ LI _ _ _ Hat) as [_ Hmb].
    pose proof (discard_ok LI _ (dcomp_onsave C I) (fun _ => True) fuel0 i1 _ _ _ m i2 (sck2, sr2) r2
      ltac:(intros; exfalso; tauto) Logic.I Hat ltac:(lia) Hd) as (_ & D2 & D3).
    destruct (D2 (Hq Hqi)) as [Hq2 Hk2]. injection Hk2 as -> ->.
    assert (Hz0 : 0 <= z).
    { subst z. destruct (dk_src C I dk) as [ic|]; [|lia]. exact (proj1 (lw_ck_len _ _ _ LI ic (Hic ic eq_refl))). }
    destruct r2 as [u|e| |]; [| |destruct D3|destruct D3].
    - destruct D3 as (m' & Hat2 & _ & Hc2).
      destruct (z <=? dk_roff C I dk) eqn:Hle.
      + destruct (dk_snap C I dk) as [dd|] eqn:Hsn.
        { exfalso. destruct Hbad as [Hb|Hb]; [discriminate|]. rewrite <- Hz in Hb. lia. }
        destruct (s_resume I i2 None) as [i3 r3] eqn:Hr3.
        pose proof (lw_resume _ _ _ LI _ None _ _ (lw_at_wf _ _ _ LI _ _ _ Hat2) ltac:(discriminate) Hr3) as Hrs3.
        destruct r3 as [z3|e| |]; [| |destruct Hrs3|destruct Hrs3].
        * destruct Hrs3 as (_ & m3 & Hat3 & Hq3 & Hc3). apply Hfresh.
          -- split; [exact (lw_at_wf _ _ _ LI _ _ _ Hat3)|]. intros _. auto.
          -- cbn. auto.
        * intros [= <- <-]. destruct Hrs3 as [Hrs3|[H1 H2]]; [left; auto|right; left].
          eapply empty_input; eassumption.
      + apply Hfresh; [|cbn; auto]. split; [exact (lw_at_wf _ _ _ LI _ _ _ Hat2)|]. cbn. auto.
    - intros [= <- <-]. destruct D3 as (o2 & m2 & _ & _ & _ & _ & [D3|(_ & _ & D4 & _)]); [left; auto|].
      right. right. exists dk. split; [reflexivity|].
      pose proof (lw_at_len _ _ _ LI _ _ _ Hat) as [Hl _].
      destruct (Z.leb_spec (dk_roff C I dk) z) as [Hlt|Hlt].
      + exfalso. destruct fuel0 as [|f0]; [lia|]. cbn [discard_by_read] in Hd.
        replace (dk_roff C I dk - z <=? 0) with true in Hd by lia. discriminate Hd.
      + unfold zlen. lia.
  Qed.
End Fallback.
