(** Confine_proofs.v -- nothing outside the destination is touched. *)
From Verif Require Import Base Base_proofs Path PathSpec Path_proofs Source Sink SinkSpec FS FS_proofs FolderSink FSteps_proofs FolderSpec.

Notation tidy := no_dotdot_after_name.

Lemma tidy_nodd cs : Forall (fun c => c <> dotdot) cs -> tidy cs.
Proof. intros H. exists [], cs. auto. Qed.
Lemma tidy_app a b : tidy a -> Forall (fun c => c <> dotdot) b -> tidy (a ++ b).
Proof. intros (u & d & -> & H1 & H2) Hb. exists u, (d ++ b). rewrite app_assoc. splits; auto. apply Forall_app. auto. Qed.
Lemma tidy_tail c cs : tidy (c :: cs) -> tidy cs /\ (c <> dot -> c <> dotdot -> Forall (fun c => c <> dotdot) cs).
Proof.
  intros (u & d & E & H1 & H2). destruct u as [|x u].
  - cbn in E. subst d. inversion H2; subst. split; [apply tidy_nodd; assumption|auto].
  - injection E as -> ->. inversion H1; subst. split; [exists u, d; auto|]. intros A B. exfalso. tauto.
Qed.
Lemma normals_nodd cs : Forall normal cs -> Forall (fun c => c <> dotdot) cs.
Proof. apply Forall_impl. intros a (_ & _ & H). exact H. Qed.

Lemma walk_nodd cs : forall cur, Forall (fun c => c <> dotdot) cs -> at_or_below cur (walk cur cs).
Proof.
  induction cs as [|c cs IH]; intros cur H; cbn [walk]; [apply below_refl|]. inversion H as [|? ? Hc Hcs]; subst.
  destruct (_ || _); [auto|]. change (s2b "..") with dotdot. rewrite (proj2 (bytes_eqb_neq c dotdot) Hc).
  eapply below_trans; [apply below_app|apply IH; exact Hcs].
Qed.
Lemma below_walk_nodd base cur cs : at_or_below base cur -> Forall (fun c => c <> dotdot) cs -> at_or_below base (walk cur cs).
Proof. intros H H2. eapply below_trans; [exact H|apply walk_nodd; exact H2]. Qed.

Lemma walk_cons_name cur c cs : c <> [] -> c <> dot -> c <> dotdot -> walk cur (c :: cs) = walk (cur ++ [c]) cs.
Proof.
  intros H0 H1 H2. cbn [walk]. change (s2b ".") with dot. change (s2b "..") with dotdot.
  rewrite (proj2 (bytes_eqb_neq c []) H0), (proj2 (bytes_eqb_neq c dot) H1), (proj2 (bytes_eqb_neq c dotdot) H2). reflexivity.
Qed.
Lemma walk_cons_dot cur cs : walk cur (dot :: cs) = walk cur cs. Proof. reflexivity. Qed.
Lemma walk_cons_dotdot cur cs : walk cur (dotdot :: cs) = walk (removelast cur) cs. Proof. reflexivity. Qed.

Section Resolve.
  Context (base : loc) (s : fsys).
  Hypothesis Habove : forall q t, at_or_below q base -> f_tree s q <> Some (FLink t).
  Hypothesis Hlinks : forall l t, at_or_below base l -> f_tree s l = Some (FLink t) ->
    is_abs t = false /\ tidy (pcomps t) /\ at_or_below base (walk (removelast l) (pcomps t)).

  Definition onway (cur : loc) : Prop := at_or_below base cur \/ at_or_below cur base.

  Lemma onway_up cur : onway cur -> onway (removelast cur).
  Proof.
    intros [H|H].
    - destruct (loc_dec base cur) as [Ee|Hne]; [right; rewrite Ee; apply removelast_below|]. left. apply below_removelast; auto.
    - right. eapply below_trans; [apply removelast_below|exact H].
  Qed.

  (** wherever a tidy path that lexically ends inside leads, it is inside *)
  Lemma resolve_safe b n : forall cs cur l, tidy cs -> Forall (fun c => c <> []) cs -> onway cur -> at_or_below base (walk cur cs) ->
    resolve s b n cur cs = Ok l -> at_or_below base l.
  Proof.
    induction n as [|n IHn]; induction cs as [|c cs IHc]; intros cur l Ht Hne Hon Hw; try (rewrite resolve_nil; intros E; injection E as <-; exact Hw).
    all: destruct (tidy_tail c cs Ht) as [Ht' Hnd]; inversion Hne as [|? ? Hc Hcs]; subst.
    all: rewrite resolve_cons; destruct (bytes_eqb c dot) eqn:E1.
    1,3: apply bytes_eqb_eq in E1; subst c; rewrite walk_cons_dot in Hw; apply IHc; auto.
    all: destruct (bytes_eqb c dotdot) eqn:E2.
    1,3: apply bytes_eqb_eq in E2; subst c; rewrite walk_cons_dotdot in Hw; apply IHc; auto; apply onway_up; exact Hon.
    all: apply bytes_eqb_neq in E1, E2; specialize (Hnd E1 E2); rewrite walk_cons_name in Hw by assumption.
    all: assert (Hon' : onway (cur ++ [c])) by
      (destruct Hon as [Hon|Hon]; [left; eapply below_trans; [exact Hon|apply below_app]|];
       destruct (below_total base (cur ++ [c]) (walk (cur ++ [c]) cs) Hw (walk_nodd cs _ Hnd)) as [Hx|Hx]; [left|right]; exact Hx).
    all: assert (Hlast : is_last_comp cs = true -> at_or_below base (cur ++ [c])) by (destruct cs; [intros _; exact Hw|discriminate]).
    all: destruct (f_tree s (cur ++ [c])) as [[m|t|i]|] eqn:Et.
    1,5: apply IHc; auto.
    2,3,5,6: destruct (is_last_comp cs); [intros E; injection E as <-; auto|discriminate].
    all: assert (Hin : at_or_below base (cur ++ [c])) by
      (destruct Hon' as [Hx|Hx]; [exact Hx|exfalso; exact (Habove _ _ Hx Et)]).
    - destruct (is_last_comp cs && negb b); [intros E; injection E as <-; exact Hin|discriminate].
    - destruct (is_last_comp cs && negb b); [intros E; injection E as <-; exact Hin|].
      destruct (Hlinks _ _ Hin Et) as (Ha & Htt & Hwt). rewrite removelast_last in Hwt. rewrite Ha.
      apply IHn.
      + apply tidy_app; assumption.
      + apply Forall_app. split; [|exact Hcs]. eapply Forall_impl; [|apply pcomps_nonempty]. intros a [H _]. exact H.
      + exact Hon.
      + rewrite walk_app. apply below_walk_nodd; assumption.
  Qed.

  Lemma resolve_path_safe b l l' : Forall normal l -> at_or_below base l -> resolve_path s b (render l) = Ok l' -> at_or_below base l'.
  Proof.
    intros Hn Hl. unfold resolve_path. rewrite is_abs_render, pcomps_render by exact Hn. apply resolve_safe.
    - apply tidy_nodd, normals_nodd. exact Hn.
    - eapply Forall_impl; [|exact Hn]. intros a [[H _] _]. exact H.
    - right. exists base. reflexivity.
    - rewrite walk_normals by exact Hn. exact Hl.
  Qed.

  (** a tidy path that lexically ends at or above the destination leads there *)
  Lemma resolve_up b n : forall cs cur l, tidy cs -> Forall (fun c => c <> []) cs -> at_or_below (walk cur cs) base ->
    resolve s b n cur cs = Ok l -> l = walk cur cs.
  Proof.
    induction cs as [|c cs IHc]; intros cur l Ht Hne Hw; [rewrite resolve_nil; intros E; injection E as <-; reflexivity|].
    destruct (tidy_tail c cs Ht) as [Ht' Hnd]; inversion Hne as [|? ? Hc Hcs]; subst.
    rewrite resolve_cons; destruct (bytes_eqb c dot) eqn:E1.
    { apply bytes_eqb_eq in E1; subst c; rewrite walk_cons_dot in *; apply IHc; auto. }
    destruct (bytes_eqb c dotdot) eqn:E2.
    { apply bytes_eqb_eq in E2; subst c; rewrite walk_cons_dotdot in *; apply IHc; auto. }
    apply bytes_eqb_neq in E1, E2; specialize (Hnd E1 E2); rewrite walk_cons_name in * by assumption.
    assert (Hl : at_or_below (cur ++ [c]) base) by (eapply below_trans; [apply walk_nodd; exact Hnd|exact Hw]).
    destruct (f_tree s (cur ++ [c])) as [[m|t|i]|] eqn:Et.
    - apply IHc; auto.
    - exfalso. exact (Habove _ _ Hl Et).
    - destruct cs; [intros E; injection E as <-; reflexivity|discriminate].
    - destruct cs; [intros E; injection E as <-; reflexivity|discriminate].
  Qed.
End Resolve.

Section Conf.
  Context (base : loc) (s0 : fsys) (LS : loc -> Prop).
  Hypothesis Hbn : Forall normal base.
  (** where symlinks may be made: never below one another, nor at Directory itself *)
  Hypothesis HLS : forall a b, LS a -> LS b -> at_or_below a b -> a = b.
  Hypothesis HLb : ~ LS base.

  Definition outer (i : nat) : Prop := exists l, ~ at_or_below base l /\ f_tree s0 l = Some (FFile i).
  Definition safe_link (l : loc) (t : bytes) : Prop :=
    is_abs t = false /\ tidy (pcomps t) /\ at_or_below base (walk (removelast l) (pcomps t)).

  Record conf (s : fsys) : Prop := {
    cf_out : forall l, ~ at_or_below base l -> f_tree s l = f_tree s0 l \/
      (at_or_below l base /\ f_tree s0 l = None /\ exists m, f_tree s l = Some (FDir m));
    cf_ino : forall i, outer i -> f_ino s i = f_ino s0 i;
    cf_in : forall l i, at_or_below base l -> f_tree s l = Some (FFile i) -> ~ outer i;
    cf_hand : forall h x, f_hand s h = Some x -> ~ outer (h_ino x);
    cf_next : forall i, (f_next s <= i)%nat -> ~ outer i;
    cf_above : forall q t, at_or_below q base -> f_tree s q <> Some (FLink t);
    cf_links : forall l t, at_or_below base l -> f_tree s l = Some (FLink t) -> LS l /\ safe_link l t;
    cf_wd : f_wd s = f_wd s0 }.

  Lemma conf_outside s : conf s -> outside_same base s0 s.
  Proof.
    intros C l Hl. destruct (cf_out s C l Hl) as [E|(H1 & H2 & m & H3)].
    - left. unfold look. rewrite E. destruct (f_tree s0 l) as [[| |i]|] eqn:Et; try reflexivity.
      rewrite (cf_ino s C i); [reflexivity|]. exists l. auto.
    - right. splits; auto; unfold look; [rewrite H2; reflexivity|rewrite H3; eauto].
  Qed.

  Lemma conf_tree s s' : conf s -> f_tree s' = f_tree s -> f_ino s' = f_ino s -> f_next s' = f_next s -> f_hand s' = f_hand s ->
    f_wd s' = f_wd s -> conf s'.
  Proof. intros [] H1 H2 H3 H4 H5. constructor; rewrite ?H1, ?H2, ?H3, ?H4, ?H5; auto. Qed.

  Lemma conf_resolve s : conf s -> forall b l l', Forall normal l -> at_or_below base l -> resolve_path s b (render l) = Ok l' -> at_or_below base l'.
  Proof.
    intros C b l l'. apply resolve_path_safe.
    - apply (cf_above s C).
    - intros l1 t H1 H2. exact (proj2 (cf_links s C l1 t H1 H2)).
  Qed.

  (** changing one location at or below base *)
  Lemma conf_set s l n : conf s -> at_or_below base l -> (forall t, n = Some (FLink t) -> LS l /\ safe_link l t) ->
    (forall i, n = Some (FFile i) -> ~ outer i) -> conf (set_node s l n).
  Proof.
    intros C Hl Hn Hf. constructor; cbn; try apply C.
    - intros l' Hl'. destruct (loc_eqb l' l) eqn:E; [apply loc_eqb_eq in E; congruence|]. apply (cf_out s C l' Hl').
    - intros l' i Hl'. destruct (loc_eqb l' l); [apply Hf|apply (cf_in s C l' i Hl')].
    - intros q t Hq. destruct (loc_eqb q l) eqn:E; [|apply (cf_above s C); exact Hq].
      apply loc_eqb_eq in E. subst q. intros E. destruct (Hn _ E) as [H _].
      assert (l = base) by (apply below_antisym; assumption). subst l. exact (HLb H).
    - intros l' t Hl'. destruct (loc_eqb l' l) eqn:E; [apply loc_eqb_eq in E; subst l'; apply Hn|]. apply (cf_links s C l' t Hl').
  Qed.

  Lemma conf_prune s l k : conf s -> at_or_below base l -> conf (prune s l k).
  Proof.
    intros C Hl. constructor; cbn; try apply C.
    - intros l' Hl'. destruct (loc_pre l l' && negb (k l')) eqn:E; [|apply (cf_out s C l' Hl')].
      apply andb_true_iff in E. destruct E as [E _]. apply loc_pre_spec in E. exfalso. apply Hl'. eapply below_trans; eassumption.
    - intros l' i Hl'. destruct (_ && _); [discriminate|apply (cf_in s C l' i Hl')].
    - intros l' t Hl'. destruct (_ && _); [discriminate|apply (cf_above s C l' t Hl')].
    - intros l' t Hl'. destruct (_ && _); [discriminate|apply (cf_links s C l' t Hl')].
  Qed.

  Lemma conf_step dst (lk : bytes -> Prop) s s' : Forall normal dst -> at_or_below base dst -> (forall t, lk t -> LS dst /\ safe_link dst t) ->
    pstep dst lk s s' -> conf s -> conf s'.
  Proof.
    intros Hd Hdb Hlk H C. inversion H as [s1 o|s1 p Hp|s1 q l m Hq Hr Ht|s1 l n Hr Ht Hn|s1 l k Hr Hk|s1 l t Hr Ht Hk|s1 l m Hr Ht|s1 l i Hr Ht
      |s1 s2 h x Hh H1 H2 H3 H4 H5 H6 H7 H8 H9]; subst.
    - eapply conf_tree; [exact C|reflexivity..].
    - eapply conf_tree; [exact C|reflexivity..].
    - assert (Hqn : Forall normal q) by (destruct Hq as [r ->]; apply Forall_app in Hd; tauto).
      destruct (below_dec base q) as [Hb|Hb].
      + apply conf_set; try discriminate; auto. eapply conf_resolve; eauto.
      + destruct (below_total base q dst Hdb Hq) as [Hx|Hx]; [contradiction|].
        assert (l = q).
        { unfold resolve_path in Hr. rewrite is_abs_render, pcomps_render in Hr by exact Hqn.
          apply (resolve_up base s (cf_above s C)) in Hr; rewrite ?walk_normals in * by exact Hqn; auto.
          - apply tidy_nodd, normals_nodd. exact Hqn.
          - eapply Forall_impl; [|exact Hqn]. intros a [[Ha _] _]. exact Ha. }
        subst l. assert (Hs0 : f_tree s0 q = None).
        { destruct (cf_out s C q Hb) as [E|(_ & _ & m' & E)]; congruence. }
        constructor; cbn; try apply C.
        * intros l' Hl'. destruct (loc_eqb l' q) eqn:E; [apply loc_eqb_eq in E; subst l'|apply (cf_out s C l' Hl')]. right. eauto.
        * intros l' i Hl'. destruct (loc_eqb l' q); [discriminate|apply (cf_in s C l' i Hl')].
        * intros l' t Hl'. destruct (loc_eqb l' q); [discriminate|apply (cf_above s C l' t Hl')].
        * intros l' t Hl'. destruct (loc_eqb l' q); [discriminate|apply (cf_links s C l' t Hl')].
    - apply conf_set; try discriminate; auto. eapply conf_resolve; eauto.
    - apply conf_prune; auto. eapply conf_resolve; eauto.
    - assert (l = dst).
      { apply (resolve_path_lex s false dst l); auto; [|discriminate]. intros q t' Hq Hne E.
        destruct (below_total base q dst Hdb Hq) as [Hx|Hx]; [|exact (cf_above s C q t' Hx E)].
        destruct (cf_links s C q t' Hx E) as [HL _]. apply Hne. apply HLS; auto. apply (Hlk t Hk). }
      subst l. apply conf_set; try discriminate; auto. intros t0 E. injection E as <-. apply Hlk. exact Hk.
    - assert (Hl : at_or_below base l) by (eapply conf_resolve; eauto).
      assert (C' : conf (with_next (set_ino s (f_next s) (MkIno [] [] m)) (S (f_next s)))).
      { constructor; cbn; try apply C.
        - intros i Hi. destruct (Nat.eqb i (f_next s)) eqn:E; [|apply (cf_ino s C i Hi)]. apply Nat.eqb_eq in E. subst i.
          exfalso. exact (cf_next s C (f_next s) (le_n _) Hi).
        - intros i Hi. apply (cf_next s C). lia. }
      eapply conf_tree; [apply (conf_set _ l (Some (FFile (f_next s))) C')|reflexivity..]; try discriminate; auto.
      intros i E. injection E as <-. apply (cf_next s C). lia.
    - assert (Hl : at_or_below base l) by (eapply conf_resolve; eauto).
      constructor; cbn; try apply C. intros h x. destruct (Nat.eqb h (f_nexth s)); [|apply (cf_hand s C h x)].
      intros E. injection E as <-. cbn. eapply (cf_in s C); eauto.
    - pose proof (cf_hand s C h x Hh) as Hx. constructor; rewrite ?H1, ?H3, ?H7; try apply C.
      + intros i Hi. rewrite H2; [apply (cf_ino s C i Hi)|]. intros ->. contradiction.
      + intros j y Hy. destruct (Nat.eq_dec j h) as [->|Hne]; [|rewrite H4 in Hy by exact Hne; eapply (cf_hand s C); eauto].
        destruct H5 as [E|[p E]]; rewrite Hy in E; [discriminate|]. injection E as ->. exact Hx.
  Qed.

  Lemma conf_steps dst (lk : bytes -> Prop) s s' : Forall normal dst -> at_or_below base dst -> (forall t, lk t -> LS dst /\ safe_link dst t) ->
    psteps dst lk s s' -> conf s -> conf s'.
  Proof. intros Hd Hdb Hlk. apply ps_inv. intros a b. apply conf_step; assumption. Qed.
End Conf.

Section Run.
  Context (c : fcfg) (LS : loc -> Prop) (k0 : fsink).
  Let base := fbase c.
  Hypothesis Hwd : is_abs (fc_wd c) = true.
  Hypothesis Hf : f_wd (fk_fs k0) = locate [] (fc_wd c).
  Hypothesis Hb : base <> [].
  Hypothesis Hdir : tidy (pcomps (fc_dir c)).
  Hypothesis HLS : forall a b, LS a -> LS b -> at_or_below a b -> a = b.
  Hypothesis HLb : ~ LS base.

  Definition call_ok (o : fcall) : Prop :=
    match o with CSymlink e t => should_ignore (en_path e) = true \/ LS (eloc c e) /\ tidy (pcomps t) | _ => True end.
  Notation conf := (conf base (fk_fs k0) LS).

  Lemma base_normal : Forall normal base. Proof. apply base_loc_normal. Qed.
  Lemma eloc_normal e : Forall normal (eloc c e).
  Proof. apply walk_normal; [apply base_normal|apply split_slash_no_slash]. Qed.

  Lemma dest_cases e : (dest_path (fc_wd c) (fc_dir c) (en_path e) = Ok (render (eloc c e)) /\ at_or_below base (eloc c e)) \/
    (dest_path (fc_wd c) (fc_dir c) (en_path e) = Err ETraversal /\ ~ at_or_below base (eloc c e)).
  Proof.
    rewrite (dest_path_spec (fc_wd c) (fc_dir c) (en_path e) Hwd Hb). cbv zeta. unfold eloc, fbase. fold base.
    change (base_loc (fc_wd c) (fc_dir c)) with base.
    destruct (at_or_belowb base _) eqn:E; [left|right]; (split; [reflexivity|]).
    - apply at_or_belowb_spec. exact E.
    - rewrite <- at_or_belowb_spec. congruence.
  Qed.

  Lemma remove_base_conf s : conf s -> conf (fst (os_remove_all s (fc_dir c))).
  Proof.
    intros C. unfold os_remove_all. destruct (fc_dir c) as [|b0 d0] eqn:Ed.
    { eapply conf_tree; [exact C|reflexivity..]. }
    rewrite <- Ed in *. clear b0 d0 Ed.
    destruct (ends_with_dot (fc_dir c)); [eapply conf_tree; [exact C|reflexivity..]|].
    unfold tick. set (s1 := with_orc _ _). assert (C1 : conf s1) by (eapply conf_tree; [exact C|reflexivity..]).
    destruct (resolve_path s1 false (fc_dir c)) as [l|e| |] eqn:Er.
    - assert (l = base).
      { unfold resolve_path in Er. apply (resolve_up base s1 (cf_above _ _ _ _ C1)) in Er; auto.
        - subst l. rewrite walk_pcomps. unfold base, fbase, base_loc. unfold locate at 1. rewrite <- Hf.
          change (f_wd s1) with (f_wd s). rewrite (cf_wd _ _ _ _ C). reflexivity.
        - eapply Forall_impl; [|apply pcomps_nonempty]. intros a [Ha _]. exact Ha.
        - rewrite walk_pcomps. replace (walk _ _) with base; [apply below_refl|].
          unfold base, fbase, base_loc. unfold locate at 1. rewrite <- Hf.
          change (f_wd s1) with (f_wd s). rewrite (cf_wd _ _ _ _ C). reflexivity. }
      subst l. destruct (f_orc _ 0); [apply conf_prune; [exact C1|apply below_refl]|].
      destruct (_ || _); apply conf_prune; try exact C1; apply below_refl.
    - destruct (f_orc _ 0); exact C1.
    - exact C1.
    - exact C1.
  Qed.

  Lemma call_conf k o : call_ok o -> conf (fk_fs k) -> conf (fk_fs (fst (fcall_run c k o))).
  Proof.
    intros Ho C.
    assert (Hent : forall e (lk : bytes -> Prop) k', (forall t, lk t -> LS (eloc c e) /\ safe_link base (eloc c e) t) ->
       (dest_path (fc_wd c) (fc_dir c) (en_path e) = Ok (render (eloc c e)) -> psteps (eloc c e) lk (fk_fs k) (fk_fs k')) ->
       (dest_path (fc_wd c) (fc_dir c) (en_path e) = Err ETraversal -> fk_fs k' = fk_fs k) -> conf (fk_fs k')).
    { intros e lk k' Hlk H1 H2. destruct (dest_cases e) as [[E Hin]|[E _]]; [|rewrite H2 by exact E; exact C].
      eapply conf_steps; [exact HLS|exact HLb|apply eloc_normal|exact Hin|exact Hlk|apply H1; exact E|exact C]. }
    assert (Hcf : forall e s' r, dest_path (fc_wd c) (fc_dir c) (en_path e) = Err ETraversal -> create_file c (fk_fs k) e = (s', r) -> s' = fk_fs k /\ r = Err ETraversal).
    { intros e s' r E. unfold create_file. rewrite E. intros X; injection X as <- <-; auto. }
    destruct o as [e|e t|e|e| | |w d|w|w]; cbn [fcall_run].
    - destruct (fk_mkdir c k e) as [k' r] eqn:E. cbn [fst]. apply (Hent e (fun _ => False)); [tauto| |].
      + intros Hd. eapply fk_mkdir_steps; eauto. apply eloc_normal.
      + intros Hd. revert E. unfold fk_mkdir. rewrite Hd. destruct (should_ignore _); intros E; injection E as <- <-; reflexivity.
    - destruct (fk_symlink c k e t) as [k' r] eqn:E. cbn [fst].
      destruct (should_ignore (en_path e)) eqn:Ei.
      { revert E. unfold fk_symlink. rewrite Ei. intros E; injection E as <- <-; exact C. }
      destruct Ho as [Ho|[HL Ht]]; [congruence|].
      destruct (dest_cases e) as [[Ed Hin]|[Ed _]].
      2:{ revert E. unfold fk_symlink. rewrite Ei, Ed. intros E; injection E as <- <-; exact C. }
      pose proof (check_link_spec (fc_wd c) (fc_dir c) (eloc c e) t Hwd Hb (eloc_normal e)) as Hck.
      destruct (is_abs t) eqn:Ea.
      { revert E. unfold fk_symlink. rewrite Ei, Ed, Hck. intros E; injection E as <- <-; exact C. }
      destruct (at_or_belowb _ _) eqn:Eb in Hck.
      2:{ revert E. unfold fk_symlink. rewrite Ei, Ed, Hck. intros E; injection E as <- <-; exact C. }
      apply (Hent e (fun t' => t' = t)).
      + intros t' ->. split; [exact HL|]. unfold safe_link; splits; auto. rewrite walk_pcomps. apply at_or_belowb_spec. exact Eb.
      + intros Hd. eapply fk_symlink_steps; eauto. apply eloc_normal.
      + intros Hd. congruence.
    - destruct (fk_getw c k e) as [k' r] eqn:E. cbn [fst]. apply (Hent e (fun _ => False)); [tauto| |].
      + intros Hd. eapply fk_getw_steps; eauto. apply eloc_normal.
      + intros Hd. revert E. unfold fk_getw. destruct (should_ignore _); [intros E; injection E as <- <-; reflexivity|].
        destruct (create_file c (fk_fs k) e) as [s1 r1] eqn:E1. destruct (Hcf _ _ _ Hd E1) as [-> ->].
        intros E; injection E as <- <-. reflexivity.
    - destruct (fk_prealloc c k e) as [k' r] eqn:E. cbn [fst]. apply (Hent e (fun _ => False)); [tauto| |].
      + intros Hd. eapply fk_prealloc_steps; eauto. apply eloc_normal.
      + intros Hd. revert E. unfold fk_prealloc. destruct (should_ignore _); [intros E; injection E as <- <-; reflexivity|].
        destruct (create_file c (fk_fs k) e) as [s1 r1] eqn:E1. destruct (Hcf _ _ _ Hd E1) as [-> ->].
        intros E; injection E as <- <-. reflexivity.
    - unfold fk_nuke. destruct (fk_close k) as [k1 r1] eqn:E1.
      assert (C1 : conf (fk_fs k1)).
      { eapply (conf_steps base (fk_fs k0) LS HLS HLb base (fun _ => False)); [apply base_normal|apply below_refl|tauto| |exact C].
        eapply fk_close_steps; eauto. }
      destruct r1; [exact C1|]. pose proof (remove_base_conf _ C1) as C2.
      destruct (os_remove_all (fk_fs k1) (fc_dir c)) as [s2 r2]. exact C2.
    - destruct (fk_close k) as [k1 r1] eqn:E1. cbn [fst].
      eapply (conf_steps base (fk_fs k0) LS HLS HLb base (fun _ => False)); [apply base_normal|apply below_refl|tauto| |exact C].
      eapply fk_close_steps; eauto.
    - destruct (fk_write k w d) as [k1 [[n1 a1] r1]] eqn:E1. cbn [fst].
      eapply (conf_steps base (fk_fs k0) LS HLS HLb base (fun _ => False)); [apply base_normal|apply below_refl|tauto| |exact C].
      eapply fk_write_steps; eauto.
    - destruct (fk_sync k w) as [k1 r1] eqn:E1. cbn [fst].
      eapply (conf_steps base (fk_fs k0) LS HLS HLb base (fun _ => False)); [apply base_normal|apply below_refl|tauto| |exact C].
      eapply fk_sync_steps; eauto.
    - destruct (fk_closew k w) as [k1 r1] eqn:E1. cbn [fst].
      eapply (conf_steps base (fk_fs k0) LS HLS HLb base (fun _ => False)); [apply base_normal|apply below_refl|tauto| |exact C].
      unfold fk_closew in E1. destruct w as [w|]; [eapply fk_closew_steps; eauto|injection E1 as <- <-; constructor].
  Qed.

  Lemma calls_conf os : forall k, Forall call_ok os -> conf (fk_fs k) -> conf (fk_fs (fcalls_run c k os)).
  Proof.
    induction os as [|o os IH]; intros k Ho C; [exact C|]. inversion Ho; subst. cbn [fcalls_run]. apply IH; [assumption|].
    apply call_conf; assumption.
  Qed.
End Run.

(** Everything together. *)
Lemma confined c k os (LS : loc -> Prop) : plain c k ->
  (forall a b, LS a -> LS b -> at_or_below a b -> a = b) -> ~ LS (fbase c) -> Forall (call_ok c LS) os ->
  outside_same (fbase c) (fk_fs k) (fk_fs (fcalls_run c k os)).
Proof.
  intros [[Hwd Hf] Hdir Habove Hbelow Hhard Hino Hopen] HLS HLb Hos.
  destruct (loc_dec (fbase c) []) as [E|Hb].
  { intros l Hl. exfalso. apply Hl. rewrite E. exists l. reflexivity. }
  apply (conf_outside (fbase c) (fk_fs k) LS).
  apply calls_conf; auto. constructor; auto.
  - intros l i Hl Et (l' & Hl' & Et'). apply Hl'. eapply Hhard; eauto.
  - intros h x. rewrite Hopen. discriminate.
  - intros i Hi (l & _ & Et). apply Hino in Et. lia.
  - intros l t Hl Et. exfalso. exact (Hbelow l t Hl Et).
Qed.
