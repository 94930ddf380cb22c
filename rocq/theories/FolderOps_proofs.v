(** FolderOps_proofs.v -- FolderSink's operations at a location that may hold
    anything. *)
From Verif Require Import Base Base_proofs Path PathSpec Path_proofs Source Sink SinkSpec FS FS_proofs FolderSink FSteps_proofs FSLex_proofs FolderSpec Folder_proofs.

Lemma look_same s s' : f_tree s' = f_tree s -> f_ino s' = f_ino s -> forall q, look s' q = look s q.
Proof. intros H1 H2 q. unfold look. rewrite H1, H2. reflexivity. Qed.

Lemma created_only s s' l : (forall l' i, f_tree s l' = Some (FFile i) -> (i < f_next s)%nat) ->
  (forall l' i, f_tree s l = Some (FFile i) -> f_tree s l' = Some (FFile i) -> l' = l) ->
  created l s s' -> only_changed l s s'.
Proof.
  intros Hi Hh HC q Hq. unfold look. destruct (cr_frame _ _ _ HC q Hq) as [H|(H1 & H2 & m & H3)].
  - left. rewrite H. destruct (f_tree s q) as [[| |i]|] eqn:E; try reflexivity.
    rewrite (cr_ino _ _ _ HC i); [reflexivity|eapply Hi; eauto|]. intros E'. apply Hq. eapply Hh; eauto.
  - right. rewrite H2, H3. splits; eauto.
Qed.
Lemma only_others s s1 s' l h i : only_changed l s s1 -> (forall q, f_tree s1 q = Some (FFile i) -> q = l) -> others s1 s' h i -> only_changed l s s'.
Proof.
  intros HF HI (O1 & O2 & _) q Hq. assert (E : look s' q = look s1 q).
  { unfold look. rewrite O1. destruct (f_tree s1 q) as [[| |j]|] eqn:E; try reflexivity. rewrite O2; [reflexivity|]. intros ->. apply Hq, HI, E. }
  rewrite E. apply HF. exact Hq.
Qed.
Lemma only_eq s s1 s' l : only_changed l s s1 -> (forall q, look s' q = look s1 q) -> only_changed l s s'.
Proof. intros H E q Hq. rewrite E. apply H. exact Hq. Qed.
Lemma created_uniq s s' l i : (forall l' i, f_tree s l' = Some (FFile i) -> (i < f_next s)%nat) ->
  (forall l' i, f_tree s l = Some (FFile i) -> f_tree s l' = Some (FFile i) -> l' = l) ->
  created l s s' -> f_tree s' l = Some (FFile i) -> forall q, f_tree s' q = Some (FFile i) -> q = l.
Proof.
  intros Hi Hh HC Hl q Hq. destruct (loc_dec q l) as [->|Hne]; [reflexivity|].
  assert (Hq' : f_tree s q = Some (FFile i)). { destruct (cr_frame _ _ _ HC q Hne) as [H|(_ & _ & m & H)]; congruence. }
  destruct (cr_node _ _ _ HC) as [H|[_ [H|H]]]; [|congruence|].
  - rewrite H in Hl. eapply Hh; eauto.
  - rewrite H in Hl. injection Hl as <-. apply Hi in Hq'. lia.
Qed.

(** w writes at the end of the file at l, which contains d *)
Definition wopen (k : fsink) (w : nat) (l : loc) (d : bytes) : Prop := exists h i,
  fk_ws k w = Some (Some h) /\ f_hand (fk_fs k) h = Some (MkH i (length d)) /\ f_tree (fk_fs k) l = Some (FFile i) /\
  i_data (f_ino (fk_fs k) i) = d /\ (forall q, f_tree (fk_fs k) q = Some (FFile i) -> q = l).

Definition new_mode (s : fsys) (l : loc) (e : entry) : Z :=
  match f_tree s l with
  | None => Z.land (perm (Z.lor (en_mode e) mode_mask)) (Z.lnot (f_umask s)) | Some _ => perm (Z.lor (en_mode e) mode_mask) end.

Section At.
  Context (c : fcfg) (k : fsink) (e : entry) (l : loc).
  Hypothesis (Hd : dest_path (fc_wd c) (fc_dir c) (en_path e) = Ok (render l)) (Hn : Forall normal l) (Hne : l <> []) (Hi : should_ignore (en_path e) = false).
  Hypothesis (Ap : approachable k l).

  Lemma ap_rooted : rooted (fk_fs k). Proof. exact (ap_root _ _ Ap). Qed.
  Lemma ap_parcl : parcl (fk_fs k). Proof. intros l' Hl q Hq Hne'. exact (ap_tree _ _ Ap l' q Hl Hq Hne'). Qed.
  Lemma ap_passable : passable (fk_fs k) l. Proof. intros q n Hq Hne' E. exact (ap_above _ _ Ap q n Hq Hne' E). Qed.

  Lemma old_data i s1 : created l (fk_fs k) s1 -> f_tree s1 l = Some (FFile i) ->
    (f_tree (fk_fs k) l = Some (FFile i) \/
      (f_tree (fk_fs k) l = None \/ exists t, f_tree (fk_fs k) l = Some (FLink t)) /\ i = f_next (fk_fs k) /\ f_next s1 = S i /\ i_data (f_ino s1 i) = [] /\ i_dur (f_ino s1 i) = []) ->
    i_data (f_ino s1 i) = file_content (fk_fs k) l.
  Proof.
    intros Cr Ht [H|([H|[t H]] & _ & _ & H2 & _)]; unfold file_content, look; rewrite H; try exact H2.
    apply (cr_data _ _ _ Cr). eapply ap_ino; eauto.
  Qed.

  Lemma getw_at k' r : (forall t, f_tree (fk_fs k) l <> Some (FLink t)) \/ clean (fk_fs k) -> fk_getw c k e = (k', r) ->
    only_changed l (fk_fs k) (fk_fs k') /\
    (forall w, r = Ok w -> 0 <= en_woff e /\ exists n m, w = Some n /\ fk_writer k' = Some n /\ look (fk_fs k') l = Some (SFile (zfit (Z.to_nat (en_woff e)) (file_content (fk_fs k) l)) m) /\
       (clean (fk_fs k) -> m = new_mode (fk_fs k) l e) /\
       wopen k' n l (zfit (Z.to_nat (en_woff e)) (file_content (fk_fs k) l)) /\ alldirs (fk_fs k') l) /\
    (clean (fk_fs k) -> (forall m, f_tree (fk_fs k) l <> Some (FDir m)) -> 0 <= en_woff e -> exists w, r = Ok w) /\
    ((exists w, r = Ok w) \/ exists x, r = Err x) /\ (clean (fk_fs k) -> clean (fk_fs k')) /\
    (forall d m0, look (fk_fs k) l = Some (SFile d m0) -> exists m, look (fk_fs k') l = Some (SFile d m) \/ look (fk_fs k') l = Some (SFile (zfit (Z.to_nat (en_woff e)) d) m)).
  Proof.
    intros Hlk. unfold fk_getw. rewrite Hi. pose proof ap_rooted as Hro. pose proof ap_parcl as Hpc. pose proof ap_passable as Hpa. pose proof (ap_ino _ _ Ap) as Hino.
    destruct (create_file c (fk_fs k) e) as [s1 f] eqn:E1. apply (create_file_lex c (fk_fs k) e l) in E1; auto; try (intros i; apply Hino).
    destruct E1 as (Cr & F1 & F2 & F3).
    assert (HF1 : only_changed l (fk_fs k) s1) by (apply created_only; auto; apply (ap_hard _ _ Ap)).
    assert (Hkeep : forall d m0, look (fk_fs k) l = Some (SFile d m0) -> exists m, look s1 l = Some (SFile d m)).
    { intros d m0. unfold look. destruct (f_tree (fk_fs k) l) as [[| |i]|] eqn:El; try discriminate. intros E. injection E as <- _.
      assert (El1 : f_tree s1 l = Some (FFile i)) by (destruct (cr_node _ _ _ Cr) as [H|[[H|[t H]] _]]; congruence).
      rewrite El1. destruct (cr_data _ _ _ Cr i) as [-> _]; [eapply Hino; eauto|eauto]. }
    assert (Hcl1 : clean (fk_fs k) -> clean s1) by apply Cr.
    destruct f as [h|x| |]; [|clear F1 F2|exfalso; destruct F1 as [[? ?]|[? ?]]; discriminate..].
    2:{ intros E. injection E as <- <-. splits; eauto; [discriminate| |].
        - intros Hc Hnd _. destruct (F3 Hc Hnd) as [h Hh]. discriminate.
        - intros d m0 E. destruct (Hkeep d m0 E) as [m Hm]. exists m. left. exact Hm. }
    clear F1 F3. destruct (F2 h eq_refl) as (Hh & Hnh & Hal & i & Hhi & Hti & Hcase & Hmode). clear F2.
    assert (Hdata : i_data (f_ino s1 i) = file_content (fk_fs k) l) by (apply old_data; auto).
    assert (Huniq : forall q, f_tree s1 q = Some (FFile i) -> q = l).
    { eapply created_uniq; eauto. apply (ap_hard _ _ Ap). }
    match goal with |- context [if 0 <? en_woff e then ?a else ?b] => destruct (if 0 <? en_woff e then a else b) as [s2 r2] eqn:E2 end.
    assert (M2 : others s1 s2 h i /\ f_ino s2 = f_ino s1 /\ (r2 = None /\ f_hand s2 h = Some (MkH i (Z.to_nat (en_woff e))) \/ r2 <> None) /\ (clean s1 -> r2 = None)).
    { destruct (0 <? en_woff e) eqn:Ew.
      - eapply f_seek_spec in E2; [|exact Hhi]. cbn [h_ino] in E2. destruct E2 as (B1 & B2 & B3 & B4). splits; auto; [|intros Hc; apply B4; [exact Hc|lia]].
        destruct B3 as [(B3 & _ & B5)|[B3 _]]; [left; auto|right; exact B3].
      - injection E2 as <- <-. splits; auto; [unfold others; splits; auto|]. left. split; [reflexivity|].
        replace (Z.to_nat (en_woff e)) with 0%nat by lia. exact Hhi. }
    clear E2. destruct M2 as (O2 & I2 & R2 & C2).
    assert (HF2 : only_changed l (fk_fs k) s2) by (eapply only_others; eauto).
    assert (L2 : forall q, look s2 q = look s1 q) by (apply look_same; [apply O2|exact I2]).
    destruct r2 as [x|].
    { intros E. injection E as <- <-. splits; eauto; [discriminate| | |].
      - intros Hc. discriminate (C2 (Hcl1 Hc)).
      - intros Hc. apply O2. auto.
      - intros d m0 E. destruct (Hkeep d m0 E) as [m Hm]. exists m. left. cbn. rewrite L2. exact Hm. }
    destruct R2 as [[_ R2]|R2]; [|congruence].
    destruct (f_truncate s2 h (en_woff e)) as [s3 r3] eqn:E3. eapply f_truncate_spec in E3; [|exact R2]. cbn [h_ino] in E3.
    destruct E3 as (O3 & H3 & M3 & R3 & C3). rewrite I2 in R3, M3.
    assert (O13 : others s1 s3 h i) by (eapply others_trans; eassumption).
    assert (HF3 : only_changed l (fk_fs k) s3) by exact (only_others _ _ _ _ _ _ HF1 Huniq O13).
    assert (Hcl2 : clean s1 -> clean s2) by apply O2. assert (Hcl3 : clean s2 -> clean s3) by apply O3.
    destruct R3 as [(-> & Hw & D3)|[Hr3 D3]].
    2:{ destruct r3 as [x|]; [|congruence]. intros E. injection E as <- <-. splits; eauto; [discriminate| |].
        - intros Hc _ Hw. discriminate (C3 (Hcl2 (Hcl1 Hc)) Hw).
        - intros d m0 E. destruct (Hkeep d m0 E) as [m Hm]. exists m. left. cbn. rewrite <- Hm. apply look_same; [apply O13|exact D3]. }
    rewrite Hdata in D3.
    destruct (fk_close (set_fs k s3)) as [k4 r4] eqn:E4.
    assert (A : f_tree (fk_fs k4) = f_tree s3 /\ f_ino (fk_fs k4) = f_ino s3 /\ (clean s3 -> clean (fk_fs k4)) /\ f_hand (fk_fs k4) h = f_hand s3 h).
    { revert E4. unfold fk_close, fk_closew_. cbn. destruct (fk_writer k) as [w0|]; [|intros E; injection E as <- <-; auto].
      destruct (fk_ws k w0) as [[h0|]|] eqn:Ew0; try (intros E; injection E as <- <-; auto).
      destruct (f_close s3 h0) as [s4 r5] eqn:E5. apply f_close_any in E5. destruct E5 as (A1 & A2 & A3 & A4 & A5 & A6 & A7 & A8 & A9).
      intros E. injection E as <- <-. cbn. splits; auto. apply A4. apply (ap_ws _ _ Ap) in Ew0. lia. }
    clear E4. destruct A as (A1 & A2 & A3 & A4). pose proof O13 as (P1 & P2 & P3 & P4 & P5 & _).
    assert (L4 : forall q, look (fk_fs k4) q = look s3 q) by (apply look_same; assumption).
    assert (Lk : look s3 l = Some (SFile (zfit (Z.to_nat (en_woff e)) (file_content (fk_fs k) l)) (i_mode (f_ino s3 i)))).
    { unfold look. rewrite P1, Hti, D3. reflexivity. }
    intros E. injection E as <- <-. cbn [fk_fs fk_writer]. splits; eauto.
    - eapply only_eq; eauto.
    - intros w E. injection E as <-. split; [exact Hw|]. exists (fk_nextw k4), (i_mode (f_ino s3 i)). rewrite L4. splits; auto.
      + intros Hc. rewrite M3. apply Hmode. exact Hc.
      + exists h, i. cbn. rewrite Nat.eqb_refl, A1, A2, P1, D3, zfit_length, A4, H3. splits; auto.
      + unfold alldirs. rewrite A1, P1. exact Hal.
    - intros d m0 E. eexists. right. rewrite L4, Lk. unfold file_content. rewrite E. reflexivity.
  Qed.
End At.

Lemma wopen_write k w l d x k' n adv r : wopen k w l d -> fk_write k (Some w) x = (k', (n, adv, r)) ->
  wopen k' w l (d ++ firstn n x) /\ adv = Z.of_nat n /\ (n <= length x)%nat /\ (r = None -> n = length x) /\ (clean (fk_fs k) -> clean (fk_fs k') /\ r = None) /\
  (forall q, q <> l -> look (fk_fs k') q = look (fk_fs k) q) /\ (forall m, look (fk_fs k) l = Some (SFile d m) -> look (fk_fs k') l = Some (SFile (d ++ firstn n x) m)).
Proof.
  intros (h & i & Hw & Hh & Ht & Hd & Hu). unfold fk_write. rewrite Hw.
  destruct (f_write (fk_fs k) h x) as [s1 [n1 r1]] eqn:E1. intros E. injection E as <- <- <- <-.
  eapply f_write_spec in E1; [|exact Hh]. cbn [h_ino h_pos] in E1. destruct E1 as (O & B1 & B2 & B3 & B4 & BM & _ & B5 & B6).
  pose proof O as (P1 & P2 & P3 & P4 & P5 & _ & _ & P8).
  assert (HD : i_data (f_ino s1 i) = d ++ firstn n1 x).
  { destruct (Nat.eq_dec n1 0) as [->|Hn]; [rewrite B5 by reflexivity; cbn; rewrite app_nil_r; exact Hd|].
    rewrite B6 by exact Hn. rewrite Hd. apply overwrite_end. }
  splits; auto.
  - exists h, i. cbn. rewrite P1, HD, app_length, firstn_length, Nat.min_l by lia. splits; auto.
  - intros q Hq. unfold look. cbn. rewrite P1. destruct (f_tree (fk_fs k) q) as [[| |j]|] eqn:E; try reflexivity. rewrite P2; [reflexivity|]. intros ->. apply Hq. auto.
  - intros m. unfold look. cbn. rewrite P1, Ht, HD, BM, Hd. intros E. injection E as <-. reflexivity.
Qed.
Lemma wopen_sync k w l d k' r : wopen k w l d -> fk_sync k (Some w) = (k', r) ->
  wopen k' w l d /\ (clean (fk_fs k) -> clean (fk_fs k') /\ r = None) /\ (forall q, look (fk_fs k') q = look (fk_fs k) q).
Proof.
  intros (h & i & Hw & Hh & Ht & Hd & Hu). unfold fk_sync. rewrite Hw.
  destruct (f_sync (fk_fs k) h) as [s1 r1] eqn:E1. intros E. injection E as <- <-.
  eapply f_sync_spec in E1; [|exact Hh]. cbn [h_ino h_pos] in E1. destruct E1 as (O & B1 & B2 & BM & B3 & B4).
  pose proof O as (P1 & P2 & P3 & P4 & P5 & _ & _ & P8). splits; auto.
  - exists h, i. cbn. rewrite P1, B2. splits; auto.
  - intros q. unfold look. cbn. rewrite P1. destruct (f_tree (fk_fs k) q) as [[| |j]|] eqn:E; try reflexivity.
    destruct (Nat.eq_dec j i) as [->|Hj]; [rewrite B2, BM; reflexivity|rewrite P2 by exact Hj; reflexivity].
Qed.

Lemma write_all_spec os : forall k w l d m k' t a, wopen k w l d -> look (fk_fs k) l = Some (SFile d m) -> write_all k (Some w) os = (k', t, a) ->
  wopen k' w l (d ++ t) /\ look (fk_fs k') l = Some (SFile (d ++ t) m) /\ a = Z.of_nat (length t) /\
  (forall q, q <> l -> look (fk_fs k') q = look (fk_fs k) q) /\
  (clean (fk_fs k) -> t = concat (map (fun o => match o with Some x => x | None => [] end) os)).
Proof.
  induction os as [|[x|] os IH]; intros k w l d m k' t a Hw Hl E; cbn [write_all] in E.
  - injection E as <- <- <-. rewrite app_nil_r. splits; auto.
  - destruct (fk_write k (Some w) x) as [k1 [[n adv] r]] eqn:E1. destruct (write_all k1 (Some w) os) as [[k2 t2] a2] eqn:E2. injection E as <- <- <-.
    apply (wopen_write k w l d) in E1; [|exact Hw]. destruct E1 as (W1 & -> & N1 & N2 & C1 & F1 & L1).
    apply (IH k1 w l (d ++ firstn n x) m) in E2; auto. destruct E2 as (W2 & L2 & -> & F2 & C2). rewrite app_assoc. splits; auto.
    + rewrite app_length, firstn_length. lia.
    + intros q Hq. rewrite F2, F1; auto.
    + intros Hc. destruct (C1 Hc) as [Hc1 Hr]. cbn [map concat]. rewrite (C2 Hc1), (N2 Hr), firstn_all. reflexivity.
  - destruct (fk_sync k (Some w)) as [k1 r] eqn:E1. cbn [fst] in E. apply (wopen_sync k w l d) in E1; [|exact Hw]. destruct E1 as (W1 & C1 & L1).
    apply (IH k1 w l d m) in E; [|exact W1|rewrite L1; exact Hl]. destruct E as (W2 & L2 & A2 & F2 & C2). splits; auto.
    + intros q Hq. rewrite F2, L1; auto.
    + intros Hc. cbn [map concat app]. apply C2. apply C1. exact Hc.
Qed.

Section At2.
  Context (c : fcfg) (k : fsink) (e : entry) (l : loc).
  Hypothesis (Hd : dest_path (fc_wd c) (fc_dir c) (en_path e) = Ok (render l)) (Hn : Forall normal l) (Hne : l <> []) (Hi : should_ignore (en_path e) = false).
  Hypothesis (Ap : approachable k l).
  Let Hro := ap_rooted k l Ap.
  Let Hpc := ap_parcl k l Ap.
  Let Hpa := ap_passable k l Ap.

  Lemma strict q : at_or_below q (removelast l) -> at_or_below q l /\ q <> l.
  Proof.
    intros Hq. split; [eapply below_trans; [exact Hq|apply removelast_below]|]. intros ->.
    apply below_len in Hq. destruct l as [|x d _] using rev_ind; [congruence|]. rewrite removelast_last, app_length in Hq. cbn in Hq. lia.
  Qed.

  Lemma grown_only s s' l0 : grown l0 s s' -> at_or_below l0 l -> only_changed l s s'.
  Proof.
    intros HG Hl q Hq. pose proof HG as [[HK _] HT]. unfold look. destruct (HT q) as [H|(H1 & H2 & m & H3)].
    - left. rewrite H, (proj1 HK). reflexivity.
    - right. rewrite H2, H3. splits; eauto. eapply below_trans; eassumption.
  Qed.

  Lemma mkdir_at k' r : (forall t, f_tree (fk_fs k) l <> Some (FLink t)) \/ clean (fk_fs k) -> fk_mkdir c k e = (k', r) ->
    only_changed l (fk_fs k) (fk_fs k') /\ (r = None -> exists m, look (fk_fs k') l = Some (SDir m)) /\
    (clean (fk_fs k) -> r = None) /\ (forall m, look (fk_fs k) l = Some (SDir m) -> look (fk_fs k') l = Some (SDir m)) /\
    (r = None -> alldirs (fk_fs k') l).
  Proof.
    intros Hlk. unfold fk_mkdir. rewrite Hi, Hd.
    destruct (os_lstat (fk_fs k) (render l)) as [s1 st] eqn:E1. apply os_lstat_lex in E1; auto using passable_nolink.
    destruct E1 as (Q1 & S1 & S2 & S3 & S4).
    assert (L1 : forall q, look s1 q = look (fk_fs k) q) by (apply look_same; apply Q1).
    assert (Hro1 : rooted s1) by (unfold rooted; rewrite (proj2 Q1); exact Hro).
    assert (Hpa1 : passable s1 l) by (eapply passable_eq; [apply Q1|exact Hpa]).
    assert (Hmk : forall s k' r, rooted s -> passable s l -> only_changed l (fk_fs k) s -> (forall m, f_tree (fk_fs k) l = Some (FDir m) -> f_tree s l = Some (FDir m)) ->
       (forall t, f_tree s l <> Some (FLink t)) -> (clean (fk_fs k) -> clean s /\ forall i, f_tree s l <> Some (FFile i)) ->
       (let '(s, er) := os_mkdir_all s (render l) dir_mode in (set_fs k s, option_map with_stack er)) = (k', r) ->
       only_changed l (fk_fs k) (fk_fs k') /\ (r = None -> exists m, look (fk_fs k') l = Some (SDir m)) /\
       (clean (fk_fs k) -> r = None) /\ (forall m, look (fk_fs k) l = Some (SDir m) -> look (fk_fs k') l = Some (SDir m)) /\
       (r = None -> alldirs (fk_fs k') l)).
    { clear - Hn Hne Ap. intros s k' r Hros Hpas Hos Hds Hls Hcs. destruct (os_mkdir_all s (render l) dir_mode) as [s2 r2] eqn:E2. intros E. injection E as <- <-.
      apply os_mkdir_all_lex in E2; auto.
      2:{ intros q t Hq E. destruct (loc_dec q l) as [->|Hql]; [eapply Hls; eauto|]. destruct (Hpas q _ Hq Hql E) as [m Hm]. discriminate. }
      destruct E2 as (G & N & C). cbn [set_fs fk_fs]. splits.
      - intros q Hq. destruct (grown_only s s2 l G (below_refl l) q Hq) as [H|(H1 & H2 & H3)].
        + rewrite H. apply Hos. exact Hq.
        + destruct (Hos q Hq) as [H|(_ & _ & m & H)]; [|congruence]. right. splits; auto. congruence.
      - intros Hr. destruct r2; [discriminate|]. destruct (N eq_refl) as [_ [m Hm]]. exists m. unfold look. rewrite Hm. reflexivity.
      - intros Hc. destruct (Hcs Hc) as [Hc' Hf']. rewrite C; [reflexivity|exact Hc'|]. intros q n Hq E. destruct (loc_dec q l) as [->|Hql].
        + destruct n as [m|t|i]; [eauto|exfalso; eapply Hls; eauto|exfalso; eapply Hf'; eauto].
        + eapply Hpas; eauto.
      - intros m E. unfold look in *. destruct (f_tree (fk_fs k) l) as [[m0| |]|] eqn:El; try discriminate. injection E as <-.
        rewrite (grown_dir _ _ _ _ G m0 (Hds m0 eq_refl)). reflexivity.
      - intros Hr. destruct r2; [discriminate|]. apply N. reflexivity. }
    assert (Ho1 : only_changed l (fk_fs k) s1) by (intros q Hq; left; apply L1).
    destruct st as [n|x| |]; [|clear S1 S4|exfalso; destruct S4 as [[? ?]|[? ?]]; discriminate..].
    2:{ intros E. eapply Hmk; [..|exact E]; auto.
        - intros m. rewrite (proj2 Q1). auto.
        - intros t Et. rewrite (proj2 Q1) in Et. destruct Hlk as [Hlk|Hc]; [eapply Hlk; eauto|].
          assert (Err x = Ok (FLink t)); [|discriminate]. apply S2; auto.
          apply Hpc. congruence.
        - intros Hc. split; [apply Q1; exact Hc|]. intros i Et. rewrite (proj2 Q1) in Et.
          assert (Err x = Ok (FFile i)); [|discriminate]. apply S2; auto. apply Hpc. congruence. }
    destruct (S1 n eq_refl) as [Ht Ha]. clear S1 S2 S3 S4. destruct (is_dir n) eqn:Ed.
    - intros E. injection E as <- <-. destruct n as [m| |]; try discriminate. cbn [set_fs fk_fs]. splits; auto.
      + intros _. exists m. rewrite L1. unfold look. rewrite Ht. reflexivity.
      + intros m' E. rewrite L1. exact E.
      + intros _. unfold alldirs. rewrite (proj2 Q1). exact Ha.
    - destruct (os_remove s1 (render l)) as [s2 r2] eqn:E2. apply os_remove_lex in E2; auto using passable_nolink.
      destruct E2 as (K2 & P2 & C2). assert (Ha1 : alldirs s1 l) by (unfold alldirs; rewrite (proj2 Q1); exact Ha).
      assert (Ht1 : f_tree s1 l = Some n) by (rewrite (proj2 Q1); exact Ht).
      destruct P2 as [[T2 R2]|(-> & _ & [T2 T2'] & _)].
      + destruct r2 as [x|]; [|congruence]. intros E. injection E as <- <-. cbn [set_fs fk_fs].
        assert (L2 : forall q, look s2 q = look (fk_fs k) q) by (intros q; rewrite <- L1; apply look_same; [exact T2|apply K2]).
        splits; [intros q Hq; left; apply L2|discriminate| |intros m E; rewrite L2; exact E|discriminate].
        intros Hc. assert (Some x = None); [|discriminate]. eapply C2; eauto. apply Q1. exact Hc.
      + intros E. eapply Hmk; [..|exact E].
        * destruct Hro1 as [m Hm]. exists m. rewrite T2'; auto.
        * intros q n' Hq Hq' E'. rewrite T2' in E' by exact Hq'. eapply Hpa1; eauto.
        * intros q Hq. left. rewrite <- L1. unfold look. rewrite T2' by exact Hq. destruct K2 as [-> _]. reflexivity.
        * intros m Hm. rewrite Ht in Hm. injection Hm as ->. discriminate.
        * intros t. rewrite T2. discriminate.
        * intros Hc. split; [apply K2, Q1, Hc|]. intros i. rewrite T2. discriminate.
  Qed.

  Lemma symlink_at t k' r : fk_symlink c k e t = (k', r) ->
    (forall q, ~ at_or_below l q -> look (fk_fs k') q = look (fk_fs k) q \/ (at_or_below q l /\ look (fk_fs k) q = None /\ exists m, look (fk_fs k') q = Some (SDir m))) /\
    (r = None -> look (fk_fs k') l = Some (SLink t) /\ forall q, at_or_below l q -> q <> l -> look (fk_fs k') q = None) /\
    (clean (fk_fs k) -> check_link (fc_wd c) (fc_dir c) (render l) t = Ok tt -> r = None) /\
    (r = None -> alldirs (fk_fs k') l).
  Proof.
    unfold fk_symlink. rewrite Hi, Hd. destruct (check_link (fc_wd c) (fc_dir c) (render l) t) as [[]|x| |] eqn:Ec.
    2:{ intros E. injection E as <- <-. splits; auto; try discriminate. }
    2-3: exfalso; revert Ec; unfold check_link; destruct (is_abs t); [discriminate|]; destruct (negb _); discriminate.
    destruct (os_remove_all (fk_fs k) (render l)) as [s1 r1] eqn:E1. apply os_remove_all_lex in E1; auto.
    destruct E1 as (K1 & R1 & R2 & R3 & R4).
    assert (Heq : forall q, ~ at_or_below l q -> f_tree s1 q = f_tree (fk_fs k) q).
    { intros q Hq. destruct (R1 q) as [H|[H1 _]]; [exact H|contradiction]. }
    assert (F1 : forall q, ~ at_or_below l q -> look s1 q = look (fk_fs k) q).
    { intros q Hq. unfold look. rewrite (Heq q Hq). destruct K1 as [-> _]. reflexivity. }
    assert (Hnb : forall q, at_or_below q l -> q <> l -> ~ at_or_below l q) by (intros q; apply below_strict).
    destruct r1 as [x|].
    { intros E. injection E as <- <-. cbn. splits; auto; [discriminate| |discriminate]. intros Hc. discriminate (R3 Hc). }
    assert (Hgone : forall q, at_or_below l q -> f_tree s1 q = None) by (apply R2; [reflexivity|exact Hpc]).
    assert (Hro1 : rooted s1). { destruct Hro as [m Hm]. exists m. rewrite Heq; [exact Hm|]. intros H. apply below_len in H. destruct l; [congruence|cbn in H; lia]. }
    assert (Hpa1 : passable s1 l). { intros q n Hq Hq' E. rewrite (Heq q (Hnb q Hq Hq')) in E. eapply Hpa; eauto. }
    rewrite (path_dir_render l Hn). destruct (os_mkdir_all s1 (render (removelast l)) lucky_mode) as [s2 r2] eqn:E2.
    apply os_mkdir_all_lex in E2; auto; [|apply Forall_removelast; exact Hn|].
    2:{ intros q t' Hq E. destruct (strict q Hq) as [Hq1 Hq2]. destruct (Hpa1 q _ Hq1 Hq2 E) as [m Hm]. discriminate. }
    destruct E2 as (G & N & C).
    assert (F2 : forall q, ~ at_or_below l q -> look s2 q = look (fk_fs k) q \/ (at_or_below q l /\ look (fk_fs k) q = None /\ exists m, look s2 q = Some (SDir m))).
    { intros q Hq. assert (Hql : q <> l) by (intros ->; apply Hq; apply below_refl).
      destruct (grown_only s1 s2 _ G (removelast_below l) q Hql) as [H|(H1 & H2 & H3)]; rewrite F1 in *; auto. }
    assert (Hgone2 : forall q, at_or_below l q -> f_tree s2 q = None).
    { intros q Hq. destruct (proj2 G q) as [H|(H & _)]; [rewrite H; auto|]. destruct (strict q H) as [H1 H2]. exfalso. apply H2. apply below_antisym; assumption. }
    destruct r2 as [x|].
    { intros E. injection E as <- <-. cbn. splits; auto; [discriminate| |discriminate].
      intros Hc _. exfalso. assert (X : Some x = None); [|discriminate]. apply C; [apply K1; exact Hc|]. intros q n Hq E. destruct (strict q Hq). eapply Hpa1; eauto. }
    clear C. assert (Hal : alldirs s2 l).
    { destruct (N eq_refl) as [N1 N2]. destruct l as [|x d _] using rev_ind; [congruence|]. rewrite removelast_last in *. apply alldirs_snoc. auto. }
    destruct (os_symlink s2 t (render l)) as [s3 r3] eqn:E3. apply os_symlink_lex in E3; auto; [|eapply grown_rooted; eauto|apply passable_nolink; eapply grown_passable; eauto].
    destruct E3 as (K3 & P3 & C3). intros E. injection E as <- <-. cbn [set_fs fk_fs].
    destruct P3 as [[T3 Hr]|(-> & _ & _ & T3 & T3')].
    - splits.
      + intros q Hq. assert (H : look s3 q = look s2 q) by (apply look_same; [exact T3|apply K3]). rewrite H. apply F2. exact Hq.
      + intros H. destruct r3; [discriminate|congruence].
      + intros Hc _. destruct (Hr (C3 (proj2 (proj2 (proj2 (proj2 (proj2 (proj2 (proj1 (proj1 G))))))) (proj2 (proj2 (proj2 (proj2 (proj2 (proj2 K1))))) Hc)) Hal (Hgone2 l (below_refl l)))).
      + intros H. destruct r3; [discriminate|congruence].
    - splits; auto.
      + intros q Hq. assert (H : look s3 q = look s2 q). { unfold look. rewrite T3'; [|intros ->; apply Hq; apply below_refl]. destruct K3 as [-> _]. reflexivity. }
        rewrite H. apply F2. exact Hq.
      + intros _. split; [unfold look; rewrite T3; reflexivity|]. intros q Hq Hq'. unfold look. rewrite T3' by exact Hq'. rewrite (Hgone2 q Hq). reflexivity.
      + intros _ q Hq Hq'. rewrite T3' by exact Hq'. apply Hal; assumption.
  Qed.

  Lemma prealloc_at k' r : (forall t, f_tree (fk_fs k) l <> Some (FLink t)) \/ clean (fk_fs k) -> fk_prealloc c k e = (k', r) ->
    only_changed l (fk_fs k) (fk_fs k') /\
    (forall d m0, look (fk_fs k) l = Some (SFile d m0) -> exists n m, look (fk_fs k') l = Some (SFile (d ++ repeat zero n) m) /\ (n <= Z.to_nat (en_usize e) - length d)%nat) /\
    (r = None -> exists m, look (fk_fs k') l = Some (SFile (file_content (fk_fs k) l ++ repeat zero (Z.to_nat (en_usize e) - length (file_content (fk_fs k) l))) m) /\
       (clean (fk_fs k) -> m = new_mode (fk_fs k) l e)) /\
    (clean (fk_fs k) -> clean (fk_fs k')) /\
    (clean (fk_fs k) -> (forall m, f_tree (fk_fs k) l <> Some (FDir m)) -> r = None) /\
    (fk_writer k' = fk_writer k /\ fk_ws k' = fk_ws k /\ fk_nextw k' = fk_nextw k) /\
    approachable k' l.
  Proof.
    intros Hlk. unfold fk_prealloc. rewrite Hi. pose proof (ap_ino _ _ Ap) as Hino.
    destruct (create_file c (fk_fs k) e) as [s1 f] eqn:E1. apply (create_file_lex c (fk_fs k) e l) in E1; auto; try (intros i; apply Hino).
    destruct E1 as (Cr & F1 & F2 & F3).
    assert (HF1 : only_changed l (fk_fs k) s1) by (apply created_only; auto; apply (ap_hard _ _ Ap)).
    assert (Hap1 : forall s2, f_tree s2 = f_tree s1 -> f_next s2 = f_next s1 -> f_nexth s2 = f_nexth s1 -> approachable (set_fs k s2) l).
    { intros s2 T2 X2 H2. assert (Hle : (f_nexth (fk_fs k) <= f_nexth s1)%nat) by (destruct (cr_handn _ _ _ Cr) as [[H|H] _]; lia).
      assert (Hmono : (f_next (fk_fs k) <= f_next s1)%nat) by (destruct (cr_next _ _ _ Cr) as [H|[H _]]; lia).
      constructor; cbn; rewrite ?T2, ?X2, ?H2.
      - apply (cr_rooted _ _ _ Cr).
      - intros l' q Hl Hq Hq'. apply (cr_parcl _ _ _ Cr l'); auto.
      - intros q n Hq Hq' E. destruct (cr_frame _ _ _ Cr q Hq') as [H|(_ & _ & m & H)]; [|exists m; congruence]. rewrite H in E. eapply (ap_above _ _ Ap); eauto.
      - intros l' i E E'. eapply created_uniq; eauto. apply (ap_hard _ _ Ap).
      - intros l' i E. destruct (loc_dec l' l) as [->|Hl].
        + destruct (cr_node _ _ _ Cr) as [H|[_ [H|H]]]; rewrite H in E; [apply Hino in E; lia|discriminate|]. injection E as <-.
          destruct (cr_fresh _ _ _ Cr H) as [H'|H']; [lia|]. apply Hino in H'. lia.
        + destruct (cr_frame _ _ _ Cr l' Hl) as [H|(_ & _ & m & H)]; [|congruence]. rewrite H in E. apply Hino in E. lia.
      - intros w h E. apply (ap_ws _ _ Ap) in E. lia. }
    assert (Hkeep : forall d m0, look (fk_fs k) l = Some (SFile d m0) -> exists m, look s1 l = Some (SFile d m)).
    { intros d m0. unfold look. destruct (f_tree (fk_fs k) l) as [[| |i]|] eqn:El; try discriminate. intros E. injection E as <- _.
      assert (El1 : f_tree s1 l = Some (FFile i)) by (destruct (cr_node _ _ _ Cr) as [H|[[H|[t H]] _]]; congruence).
      rewrite El1. destruct (cr_data _ _ _ Cr i) as [-> _]; [eapply Hino; eauto|eauto]. }
    assert (Hcl1 : clean (fk_fs k) -> clean s1) by apply Cr.
    destruct f as [h|x| |]; [|clear F1 F2|exfalso; destruct F1 as [[? ?]|[? ?]]; discriminate..].
    2:{ intros E. injection E as <- <-. cbn [set_fs fk_fs]. splits; auto.
        - intros d m0 E. destruct (Hkeep d m0 E) as [m Hm]. exists 0%nat, m. cbn. rewrite app_nil_r. split; [exact Hm|lia].
        - discriminate.
        - intros Hc Hnd. destruct (F3 Hc Hnd) as [h Hh]. discriminate. }
    clear F1 F3. destruct (F2 h eq_refl) as (Hh & Hnh & Hal & i & Hhi & Hti & Hcase & Hmode). clear F2.
    assert (Hdata : i_data (f_ino s1 i) = file_content (fk_fs k) l) by (apply (old_data k l Ap); auto).
    assert (Huniq : forall q, f_tree s1 q = Some (FFile i) -> q = l).
    { eapply created_uniq; eauto. apply (ap_hard _ _ Ap). }
    match goal with |- context [if 0 <? en_usize e then ?a else ?b] => destruct (if 0 <? en_usize e then a else b) as [s2 r2] eqn:E2 end.
    assert (M2 : others s1 s2 h i /\ (exists p, f_hand s2 h = Some (MkH i p)) /\ i_mode (f_ino s2 i) = i_mode (f_ino s1 i) /\
      (exists n, i_data (f_ino s2 i) = i_data (f_ino s1 i) ++ repeat zero n /\ (n <= Z.to_nat (en_usize e) - length (i_data (f_ino s1 i)))%nat /\
         (r2 = None -> n = Z.to_nat (en_usize e) - length (i_data (f_ino s1 i)))%nat) /\ (clean s1 -> r2 = None)).
    { destruct (0 <? en_usize e) eqn:Eu; [destruct (fc_legacy c)|].
      - eapply legacy_preallocate_spec in E2; [|exact Hhi]. cbn [h_ino] in E2. destruct E2 as (B1 & B2 & B6 & _ & (n & B3 & B7 & B4) & B5). splits; eauto.
      - eapply ox_preallocate_spec in E2; [|exact Hhi]. cbn [h_ino] in E2. destruct E2 as (B1 & B2 & B6 & _ & (n & B3 & B7 & B4) & B5). splits; eauto.
      - injection E2 as <- <-. splits; eauto; [unfold others; splits; auto|]. exists 0%nat. cbn. rewrite app_nil_r. splits; [reflexivity|lia|lia]. }
    clear E2. destruct M2 as (O2 & [p2 H2] & MM & (n & D2 & N1 & N2) & C2).
    destruct (f_close s2 h) as [s3 r3] eqn:E3. eapply f_close_spec in E3; [|exact H2]. cbn [h_ino] in E3. destruct E3 as (O3 & I3 & H3 & _).
    assert (O : others s1 s3 h i) by (eapply others_trans; eassumption). rewrite Hdata in *.
    intros E. injection E as <- <-. pose proof O as (P1 & P2 & P3 & P4 & P5 & _ & _ & P8). cbn [set_fs fk_fs fk_writer fk_ws fk_nextw].
    assert (Lk : look s3 l = Some (SFile (file_content (fk_fs k) l ++ repeat zero n) (i_mode (f_ino s1 i)))).
    { unfold look. rewrite P1, Hti, I3, D2, MM. reflexivity. }
    splits; auto.
    - exact (only_others _ _ _ _ _ _ HF1 Huniq O).
    - intros d m0 E. rewrite Lk. unfold file_content in *. rewrite E in *. eauto.
    - intros Hr. rewrite Lk, (N2 Hr). eexists. split; [reflexivity|]. intros Hc. apply Hmode. exact Hc.
  Qed.
End At2.

(** preallocated zeros make no difference to what a writer will see *)
Lemma zfit_zeros n d m : zfit n (d ++ repeat zero m) = zfit n d.
Proof.
  unfold zfit. rewrite firstn_app, app_length, repeat_length, <- app_assoc. f_equal.
  assert (Hr : forall a b, firstn a (repeat zero b) = repeat zero (Nat.min a b)).
  { clear. induction a; intros [|b]; cbn; auto. rewrite IHa. reflexivity. }
  rewrite Hr, <- repeat_app.
  replace (Nat.min (n - length d) m + (n - (length d + m)))%nat with (n - length d)%nat; [reflexivity|].
  destruct (Nat.min_spec (n - length d) m) as [[? E] | [? E]]; rewrite E; lia.
Qed.
