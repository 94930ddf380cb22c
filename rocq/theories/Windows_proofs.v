(** Windows_proofs.v -- as create_file_lex and getw_at, without the Chmod *)
From Verif Require Import Base Base_proofs Path PathSpec Path_proofs Source Sink SinkSpec FS FS_proofs FolderSink FSteps_proofs FSLex_proofs FolderSpec Folder_proofs FolderOps_proofs Windows.

Lemma create_file_win_lex c s e dst s' r :
  dest_path (fc_wd c) (fc_dir c) (en_path e) = Ok (render dst) ->
  rooted s -> parcl s -> Forall normal dst -> dst <> [] -> passable s dst ->
  (forall i, f_tree s dst = Some (FFile i) -> (i < f_next s)%nat) ->
  (forall t, f_tree s dst <> Some (FLink t)) \/ clean s ->
  create_file_win c s e = (s', r) ->
  created dst s s' /\ ((exists h, r = Ok h) \/ exists x, r = Err x) /\
  (forall h, r = Ok h -> h = f_nexth s /\ f_nexth s' = S h /\ alldirs s' dst /\
     exists i, f_hand s' h = Some (MkH i 0) /\ f_tree s' dst = Some (FFile i) /\
       (f_tree s dst = Some (FFile i) \/
        (f_tree s dst = None \/ exists t, f_tree s dst = Some (FLink t)) /\ i = f_next s /\ f_next s' = S i /\ i_data (f_ino s' i) = [] /\ i_dur (f_ino s' i) = []) ) /\
  (clean s -> (forall m, f_tree s dst <> Some (FDir m)) -> exists h, r = Ok h).
Proof.
  intros Hd Hro Hpc Hn Hne Hpa Hi Hlk. unfold create_file_win. rewrite Hd, (path_dir_render dst Hn).
  assert (Hn' : Forall normal (removelast dst)) by (apply Forall_removelast; exact Hn).
  assert (Hstrict : forall q, at_or_below q (removelast dst) -> at_or_below q dst /\ q <> dst).
  { intros q Hq. split; [eapply below_trans; [exact Hq|apply removelast_below]|]. intros ->.
    apply below_len in Hq. destruct dst as [|x d _] using rev_ind; [congruence|]. rewrite removelast_last, app_length in Hq. cbn in Hq. lia. }
  assert (Hna : nolink_at s (removelast dst)).
  { intros q t Hq E. destruct (Hstrict q Hq) as [Hq1 Hq2]. destruct (Hpa q _ Hq1 Hq2 E) as [m Hm]. discriminate. }
  destruct (os_mkdir_all s (render (removelast dst)) lucky_mode) as [s1 r1] eqn:E1.
  apply os_mkdir_all_lex in E1; auto. destruct E1 as (G1 & N1 & C1).
  assert (Hro1 : rooted s1) by (eapply grown_rooted; eauto).
  assert (Hpa1 : passable s1 dst) by (eapply grown_passable; eauto).
  assert (Hpc1 : parcl s1) by (apply G1; exact Hpc).
  assert (K1 : keeps s s1) by apply G1.
  assert (T1 : f_tree s1 dst = f_tree s dst).
  { destruct (proj2 G1 dst) as [H|(H & _)]; [exact H|]. destruct (Hstrict dst H) as [_ H2]. congruence. }
  assert (F1 : cr_step dst s s1).
  { intros q Hq. destruct (proj2 G1 q) as [H|(H & H')]; [auto|]. right. split; [apply Hstrict; exact H|exact H']. }
  assert (Cr1 : created dst s s1) by (apply created_keeps; auto).
  destruct r1 as [x|].
  { intros E. injection E as <- <-. splits; eauto; [discriminate|]. intros Hc _. exfalso. assert (X : Some x = None); [|discriminate]. apply C1; [exact Hc|].
    intros q n Hq E. destruct (Hstrict q Hq). eapply Hpa; eauto. }
  clear C1. assert (Hal1 : alldirs s1 dst).
  { destruct (N1 eq_refl) as [H1 H2]. destruct dst as [|x d _] using rev_ind; [congruence|]. rewrite removelast_last in *. apply alldirs_snoc. auto. }
  clear N1. assert (Ev0 : forall q, f_tree s1 q = None \/ True) by auto. clear Ev0.
  destruct (os_lstat s1 (render dst)) as [s2 st] eqn:E2. apply os_lstat_lex in E2; auto using passable_nolink.
  destruct E2 as (Q2 & S1 & S2 & S3 & S4).
  assert (K2 : keeps s s2) by (eapply keeps_trans; [exact K1|apply Q2]).
  assert (T2 : f_tree s2 dst = f_tree s dst) by (rewrite (proj2 Q2); exact T1).
  assert (F2 : cr_step dst s s2) by (unfold cr_step; rewrite (proj2 Q2); exact F1).
  assert (Hro2 : rooted s2) by (unfold rooted; rewrite (proj2 Q2); exact Hro1).
  assert (Hpa2 : passable s2 dst) by (unfold passable; rewrite (proj2 Q2); exact Hpa1).
  assert (Hpc2 : parcl s2) by (unfold parcl, alldirs; rewrite (proj2 Q2); exact Hpc1).
  assert (Hal2 : alldirs s2 dst) by (unfold alldirs; rewrite (proj2 Q2); exact Hal1).
  assert (Hcl2 : clean s -> clean s2) by apply K2.
  assert (Hst : forall n, st = Ok n -> f_tree s dst = Some n) by (intros n Hs; destruct (S1 n Hs); congruence).
  assert (Hst' : clean s -> forall n, f_tree s dst = Some n -> st = Ok n).
  { intros Hc n Hs. apply S2; [apply K1; exact Hc|exact Hal1|congruence]. }
  assert (Hst'' : clean s -> f_tree s dst = None -> exists x, st = Err x).
  { intros Hc Hs. apply S3; [apply K1; exact Hc|congruence]. }
  match goal with |- context [match st with Ok n => if is_link n then ?a else ?b | _ => _ end] =>
    destruct (match st with Ok n => if is_link n then a else b | _ => b end) as [s3 r3] eqn:E3 end.
  assert (M3 : keeps s s3 /\ cr_step dst s s3 /\ (f_tree s3 dst = f_tree s dst \/ (exists t, f_tree s dst = Some (FLink t)) /\ f_tree s3 dst = None) /\
    rooted s3 /\ parcl s3 /\ alldirs s3 dst /\ passable s3 dst /\ (r3 = None -> forall t, f_tree s3 dst <> Some (FLink t)) /\ (clean s -> r3 = None)).
  { destruct (match st with Ok n => is_link n | _ => false end) eqn:El.
    - destruct st as [n|x| |]; try discriminate. rewrite El in E3. apply os_remove_all_lex in E3; auto.
      destruct E3 as (R1 & R2 & R3 & R4 & R5). destruct n as [m|t|i]; try discriminate. specialize (Hst _ eq_refl).
      assert (Hbel : forall q, at_or_below dst q -> q <> dst -> f_tree s2 q = None).
      { intros q. apply parcl_below; [exact Hpc2|]. intros m. rewrite T2, Hst. discriminate. }
      assert (Heq : forall q, q <> dst -> f_tree s3 q = f_tree s2 q).
      { intros q Hq. destruct (R2 q) as [H|[H1 H2]]; [exact H|]. rewrite H2. symmetry. apply Hbel; assumption. }
      splits.
      + eapply keeps_trans; [exact K2|exact R1].
      + intros q Hq. rewrite (Heq q Hq). apply F2. exact Hq.
      + destruct (R2 dst) as [H|[_ H]]; [left; congruence|right; split; [eauto|exact H]].
      + destruct Hro2 as [m Hm]. exists m. rewrite Heq; [exact Hm|]. intros <-. contradiction.
      + auto.
      + intros q Hq Hq'. rewrite (Heq q Hq'). apply Hal2; assumption.
      + intros q n Hq Hq'. rewrite (Heq q Hq'). apply Hpa2; assumption.
      + intros Hr t'. rewrite (R3 Hr Hpc2 dst (below_refl dst)). discriminate.
      + intros Hc. apply R4. apply Hcl2. exact Hc.
    - assert (E3' : (s2, @None gerr) = (s3, r3)) by (destruct st as [n| | |]; try exact E3; rewrite El in E3; exact E3).
      injection E3' as <- <-. splits; auto. intros _ t Ht. rewrite T2 in Ht. destruct Hlk as [Hlk|Hc]; [eapply Hlk; eauto|].
      rewrite (Hst' Hc _ Ht) in El. discriminate. }
  clear E3. destruct M3 as (K3 & F3 & T3 & Hro3 & Hpc3 & Hal3 & Hpa3 & Hnl3 & Hc3).
  assert (Cr3 : created dst s s3) by (apply created_keeps; auto).
  destruct r3 as [x|].
  { intros E. injection E as <- <-. splits; eauto; [discriminate|]. intros Hc _. discriminate (Hc3 Hc). }
  specialize (Hnl3 eq_refl). set (mode := Z.lor (en_mode e) mode_mask) in *.
  destruct (os_open_create s3 (render dst) mode) as [s4 f] eqn:E4. apply os_open_lex in E4; auto.
  2:{ intros q t Hq E. destruct (loc_dec q dst) as [->|Hq']; [eapply Hnl3; eauto|]. destruct (Hal3 q Hq Hq') as [m Hm]. congruence. }
  destruct E4 as ((O1 & O2 & O3) & O4 & O5 & O6 & O7). pose proof K3 as (_ & KN & KH & KX & KW & KU & KC).
  destruct f as [h|x| |]; [|clear O4 O6|exfalso; destruct O4 as [[? ?]|[? ?]]; discriminate..].
  2:{ intros E. injection E as <- <-. specialize (O5 x eq_refl). splits; eauto.
      - apply created_keeps; auto.
        + eapply keeps_trans; [exact K3|apply O5].
        + unfold cr_step. rewrite (proj2 O5). exact F3.
        + rewrite (proj2 O5). exact T3.
        + unfold rooted. rewrite (proj2 O5). exact Hro3.
        + unfold parcl, alldirs. rewrite (proj2 O5). exact Hpc3.
      - discriminate.
      - intros Hc Hnd. destruct (O7 (KC Hc) Hal3) as [h Hh]; [|discriminate].
        intros m Hm. destruct T3 as [T3|[_ T3]]; rewrite T3 in Hm; [eapply Hnd; eauto|discriminate]. }
  clear O4 O5 O7. destruct (O6 h eq_refl) as (_ & Hh & Hnh & Hoh & i & Hhi & Hti & Hoq & Hoi & Hcase). clear O6.
  assert (Hcs : (f_tree s dst = Some (FFile i) /\ f_ino s4 i = f_ino s i /\ f_next s4 = f_next s) \/
    (f_tree s dst = None \/ exists t, f_tree s dst = Some (FLink t)) /\ i = f_next s /\ f_ino s4 i = MkIno [] [] (Z.land (perm mode) (Z.lnot (f_umask s))) /\ f_next s4 = S i).
  { destruct Hcase as [(C1 & C2 & C3)|(C1 & C2 & C3 & C4)].
    - left. rewrite C2, C3, KN, (proj1 K3). splits; auto. destruct T3 as [T3|[_ T3]]; congruence.
    - right. rewrite C3, KU. splits; auto; [|congruence]. destruct T3 as [T3|[T3 _]]; [left; congruence|right; exact T3]. }
  assert (Hal4 : alldirs s4 dst) by (intros q Hq Hq'; rewrite Hoq by exact Hq'; apply Hal3; assumption).
  assert (Hro4 : rooted s4). { destruct Hro3 as [m Hm]. exists m. rewrite Hoq; [exact Hm|auto]. }
  assert (Hpc4 : parcl s4).
  { intros q Hq. destruct (loc_dec q dst) as [->|Hq']; [exact Hal4|]. rewrite Hoq in Hq by exact Hq'. intros p Hp Hp'.
    destruct (loc_dec p dst) as [->|Hpd]; [|rewrite Hoq by exact Hpd; apply (Hpc3 q Hq); assumption].
    exfalso. apply Hq. apply (parcl_below s3 dst q Hpc3); auto. intros m Hm. destruct Hcase as [(C1 & _)|(C1 & _)]; congruence. }
  assert (Cr4 : created dst s s4).
  { constructor; auto.
    - intros q Hq. rewrite Hoq by exact Hq. apply F3. exact Hq.
    - destruct Hcs as [(C1 & _)|(C1 & -> & _)]; [left; congruence|right; split; [exact C1|right; exact Hti]].
    - intros j Hj. destruct (Nat.eq_dec j i) as [->|Hji].
      + destruct Hcs as [(_ & C2 & _)|(_ & C2 & _)]; [rewrite C2; auto|lia].
      + rewrite Hoi by exact Hji. rewrite (proj1 K3). auto.
    - intros j Hj Hjn. destruct (Nat.eq_dec j i) as [->|Hji].
      + destruct Hcs as [(C1 & _)|(_ & C2 & _)]; [congruence|lia].
      + rewrite Hoi by exact Hji. rewrite (proj1 K3). auto.
    - destruct Hcs as [(_ & _ & C)|(_ & C1 & _ & C2)]; [left; exact C|right; split; congruence].
    - intros H. destruct Hcs as [(C1 & _ & C)|(_ & C1 & _ & C2)]; [right; congruence|left; congruence].
    - intros H. destruct Hcs as [(_ & _ & C)|(_ & -> & C3 & _)]; [lia|]. rewrite C3. auto.
    - intros j Hj. rewrite Hoh by lia. rewrite KH. reflexivity.
    - split; [right; congruence|]. intros j Hj. rewrite Hoh by lia. rewrite KH. reflexivity.
    - split; congruence. }
  assert (Hdat : f_tree s dst = Some (FFile i) \/
     (f_tree s dst = None \/ exists t, f_tree s dst = Some (FLink t)) /\ i = f_next s /\ f_next s4 = S i /\ i_data (f_ino s4 i) = [] /\ i_dur (f_ino s4 i) = []).
  { destruct Hcs as [(C1 & _)|(C1 & C2 & C3 & C4)]; [left; exact C1|right]. rewrite C3. splits; auto. }
  assert (Hge : f_tree s dst = Some (FFile i) \/ (f_next s <= i)%nat).
  { destruct Hcs as [(C1 & _)|(_ & C2 & _)]; [left; exact C1|right; lia]. }
  intros E. injection E as <- <-. splits; eauto. intros h' Eh. injection Eh as <-. splits; auto; [congruence|]. exists i. splits; auto.
Qed.

Section AtWin.
  Context (c : fcfg) (k : fsink) (e : entry) (l : loc).
  Hypothesis (Hd : dest_path (fc_wd c) (fc_dir c) (en_path e) = Ok (render l)) (Hn : Forall normal l) (Hne : l <> []) (Hi : should_ignore (en_path e) = false).
  Hypothesis (Ap : approachable k l).

  Lemma getw_win_at k' r : (forall t, f_tree (fk_fs k) l <> Some (FLink t)) \/ clean (fk_fs k) -> fk_getw_win c k e = (k', r) ->
    only_changed l (fk_fs k) (fk_fs k') /\
    (forall w, r = Ok w -> 0 <= en_woff e /\ exists n m, w = Some n /\ fk_writer k' = Some n /\ look (fk_fs k') l = Some (SFile (zfit (Z.to_nat (en_woff e)) (file_content (fk_fs k) l)) m) /\
       wopen k' n l (zfit (Z.to_nat (en_woff e)) (file_content (fk_fs k) l)) /\ alldirs (fk_fs k') l) /\
    (clean (fk_fs k) -> (forall m, f_tree (fk_fs k) l <> Some (FDir m)) -> 0 <= en_woff e -> exists w, r = Ok w) /\
    ((exists w, r = Ok w) \/ exists x, r = Err x) /\ (clean (fk_fs k) -> clean (fk_fs k')) /\
    (forall d m0, look (fk_fs k) l = Some (SFile d m0) -> exists m, look (fk_fs k') l = Some (SFile d m) \/ look (fk_fs k') l = Some (SFile (zfit (Z.to_nat (en_woff e)) d) m)).
  Proof.
    intros Hlk. unfold fk_getw_win. rewrite Hi. pose proof (ap_rooted k l Ap) as Hro. pose proof (ap_parcl k l Ap) as Hpc. pose proof (ap_passable k l Ap) as Hpa. pose proof (ap_ino _ _ Ap) as Hino.
    destruct (create_file_win c (fk_fs k) e) as [s1 f] eqn:E1. apply (create_file_win_lex c (fk_fs k) e l) in E1; auto; try (intros i; apply Hino).
    destruct E1 as (Cr & F1 & F2 & F3).
    assert (HF1 : only_changed l (fk_fs k) s1) by (apply created_only; auto; apply (ap_hard _ _ Ap)).
    assert (Hkeep : forall d m0, look (fk_fs k) l = Some (SFile d m0) -> exists m, look s1 l = Some (SFile d m)).
    { intros d m0. unfold look. destruct (f_tree (fk_fs k) l) as [[| |i]|] eqn:El; try discriminate. intros E. injection E as <- _.
      assert (El1 : f_tree s1 l = Some (FFile i)) by (destruct (cr_node _ _ _ Cr) as [H|[[H|[t H]] _]]; congruence).
      rewrite El1. destruct (cr_data _ _ _ Cr i) as [-> _]; [eapply Hino; eauto|eauto]. }
    assert (Hcl1 : clean (fk_fs k) -> clean s1) by apply Cr.
    destruct f as [h|x| |]; [|clear F1 F2|exfalso; destruct F1 as [[? ?]|[? ?]]; discriminate..].
    2:{ intros E. injection E as <- <-. splits; eauto; [discriminate| |].
        - intros Hc Hnd _. destruct (F3 Hc Hnd) as [h Hh]. discriminate.
        - intros d m0 E. destruct (Hkeep d m0 E) as [m Hm]. exists m. left. exact Hm. }
    clear F1 F3. destruct (F2 h eq_refl) as (Hh & Hnh & Hal & i & Hhi & Hti & Hcase). clear F2.
    assert (Hdata : i_data (f_ino s1 i) = file_content (fk_fs k) l) by (apply (old_data k l Ap); auto).
    assert (Huniq : forall q, f_tree s1 q = Some (FFile i) -> q = l).
    { eapply created_uniq; eauto. apply (ap_hard _ _ Ap). }
    match goal with |- context [if 0 <? en_woff e then ?a else ?b] => destruct (if 0 <? en_woff e then a else b) as [s2 r2] eqn:E2 end.
    assert (M2 : others s1 s2 h i /\ f_ino s2 = f_ino s1 /\ (r2 = None /\ f_hand s2 h = Some (MkH i (Z.to_nat (en_woff e))) \/ r2 <> None) /\ (clean s1 -> r2 = None)).
    { destruct (0 <? en_woff e) eqn:Ew.
      - eapply f_seek_spec in E2; [|exact Hhi]. cbn [h_ino] in E2. destruct E2 as (B1 & B2 & B3 & B4). splits; auto; [|intros Hc; apply B4; [exact Hc|lia]].
        destruct B3 as [(B3 & _ & B5)|[B3 _]]; [left; auto|right; exact B3].
      - injection E2 as <- <-. splits; auto; [unfold others; splits; auto|]. left. split; [reflexivity|].
        replace (Z.to_nat (en_woff e)) with 0%nat by lia. exact Hhi. }
    clear E2. destruct M2 as (O2 & I2 & R2 & C2).
    assert (HF2 : only_changed l (fk_fs k) s2) by (eapply only_others; eauto).
    assert (L2 : forall q, look s2 q = look s1 q) by (apply look_same; [apply O2|exact I2]).
    destruct r2 as [x|].
    { intros E. injection E as <- <-. splits; eauto; [discriminate| | |].
      - intros Hc. discriminate (C2 (Hcl1 Hc)).
      - intros Hc. apply O2. auto.
      - intros d m0 E. destruct (Hkeep d m0 E) as [m Hm]. exists m. left. cbn. rewrite L2. exact Hm. }
    destruct R2 as [[_ R2]|R2]; [|congruence].
    destruct (f_truncate s2 h (en_woff e)) as [s3 r3] eqn:E3. eapply f_truncate_spec in E3; [|exact R2]. cbn [h_ino] in E3.
    destruct E3 as (O3 & H3 & M3 & R3 & C3). rewrite I2 in R3, M3.
    assert (O13 : others s1 s3 h i) by (eapply others_trans; eassumption).
    assert (HF3 : only_changed l (fk_fs k) s3) by exact (only_others _ _ _ _ _ _ HF1 Huniq O13).
    assert (Hcl2 : clean s1 -> clean s2) by apply O2. assert (Hcl3 : clean s2 -> clean s3) by apply O3.
    destruct R3 as [(-> & Hw & D3)|[Hr3 D3]].
    2:{ destruct r3 as [x|]; [|congruence]. intros E. injection E as <- <-. splits; eauto; [discriminate| |].
        - intros Hc _ Hw. discriminate (C3 (Hcl2 (Hcl1 Hc)) Hw).
        - intros d m0 E. destruct (Hkeep d m0 E) as [m Hm]. exists m. left. cbn. rewrite <- Hm. apply look_same; [apply O13|exact D3]. }
    rewrite Hdata in D3.
    destruct (fk_close (set_fs k s3)) as [k4 r4] eqn:E4.
    assert (A : f_tree (fk_fs k4) = f_tree s3 /\ f_ino (fk_fs k4) = f_ino s3 /\ (clean s3 -> clean (fk_fs k4)) /\ f_hand (fk_fs k4) h = f_hand s3 h).
    { revert E4. unfold fk_close, fk_closew_. cbn. destruct (fk_writer k) as [w0|]; [|intros E; injection E as <- <-; auto].
      destruct (fk_ws k w0) as [[h0|]|] eqn:Ew0; try (intros E; injection E as <- <-; auto).
      destruct (f_close s3 h0) as [s4 r5] eqn:E5. apply f_close_any in E5. destruct E5 as (A1 & A2 & A3 & A4 & A5 & A6 & A7 & A8 & A9).
      intros E. injection E as <- <-. cbn. splits; auto. apply A4. apply (ap_ws _ _ Ap) in Ew0. lia. }
    clear E4. destruct A as (A1 & A2 & A3 & A4). pose proof O13 as (P1 & P2 & P3 & P4 & P5 & _).
    assert (L4 : forall q, look (fk_fs k4) q = look s3 q) by (apply look_same; assumption).
    assert (Lk : look s3 l = Some (SFile (zfit (Z.to_nat (en_woff e)) (file_content (fk_fs k) l)) (i_mode (f_ino s3 i)))).
    { unfold look. rewrite P1, Hti, D3. reflexivity. }
    intros E. injection E as <- <-. cbn [fk_fs fk_writer]. splits; eauto.
    - eapply only_eq; eauto.
    - intros w E. injection E as <-. split; [exact Hw|]. exists (fk_nextw k4), (i_mode (f_ino s3 i)). rewrite L4. splits; auto.
      + exists h, i. cbn. rewrite Nat.eqb_refl, A1, A2, P1, D3, zfit_length, A4, H3. splits; auto.
      + unfold alldirs. rewrite A1, P1. exact Hal.
    - intros d m0 E. eexists. right. rewrite L4, Lk. unfold file_content. rewrite E. reflexivity.
  Qed.
End AtWin.
