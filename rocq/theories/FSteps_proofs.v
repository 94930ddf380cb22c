(** FSteps_proofs.v -- every FolderSink operation decomposed into elementary
    steps on the file system. *)
From Verif Require Import Base Base_proofs Path PathSpec Path_proofs Source Sink FS FS_proofs FolderSink.

(** Elementary steps of an operation on an entry at (lexical) location [dst];
    symlinks are only created with targets in [lk]. *)
Inductive pstep (dst : loc) (lk : bytes -> Prop) : fsys -> fsys -> Prop :=
| PsTick s o : pstep dst lk s (with_orc s o)
| PsLog s p : p = render dst \/ p = render (removelast dst) -> pstep dst lk s (logged s p)
| PsMkdir s q l m : at_or_below q dst -> resolve_path s false (render q) = Ok l -> f_tree s l = None ->
    pstep dst lk s (set_node s l (Some (FDir m)))
| PsUnlink s l n : resolve_path s false (render dst) = Ok l -> f_tree s l = Some n -> is_dir n = false ->
    pstep dst lk s (set_node s l None)
| PsPrune s l keep : resolve_path s false (render dst) = Ok l ->
    (forall a b, at_or_below l a -> at_or_below a b -> keep b = true -> keep a = true) ->
    pstep dst lk s (prune s l keep)
| PsLink s l t : resolve_path s false (render dst) = Ok l -> f_tree s l = None -> lk t ->
    pstep dst lk s (set_node s l (Some (FLink t)))
| PsCreate s l mode : resolve_path s true (render dst) = Ok l -> f_tree s l = None ->
    pstep dst lk s (with_next (set_node (set_ino s (f_next s) (MkIno [] [] mode)) l (Some (FFile (f_next s)))) (S (f_next s)))
| PsOpen s l i : resolve_path s true (render dst) = Ok l -> f_tree s l = Some (FFile i) ->
    pstep dst lk s (with_hand s (fun j => if Nat.eqb j (f_nexth s) then Some (MkH i 0) else f_hand s j) (S (f_nexth s)))
| PsFile s s' h x : f_hand s h = Some x -> f_tree s' = f_tree s -> (forall i, i <> h_ino x -> f_ino s' i = f_ino s i) ->
    f_next s' = f_next s -> (forall j, j <> h -> f_hand s' j = f_hand s j) ->
    (f_hand s' h = None \/ exists p, f_hand s' h = Some (MkH (h_ino x) p)) ->
    f_nexth s' = f_nexth s -> f_wd s' = f_wd s -> f_umask s' = f_umask s -> f_log s' = f_log s -> pstep dst lk s s'.

Inductive psteps (dst : loc) (lk : bytes -> Prop) : fsys -> fsys -> Prop :=
| PsRefl s : psteps dst lk s s
| PsCons s1 s2 s3 : pstep dst lk s1 s2 -> psteps dst lk s2 s3 -> psteps dst lk s1 s3.

Lemma ps_one dst lk s s' : pstep dst lk s s' -> psteps dst lk s s'.
Proof. intros H. econstructor; [exact H|constructor]. Qed.
Lemma ps_trans dst lk a b c : psteps dst lk a b -> psteps dst lk b c -> psteps dst lk a c.
Proof. induction 1; auto. intros. econstructor; eauto. Qed.
Lemma ps_inv dst lk (I : fsys -> Prop) : (forall a b, pstep dst lk a b -> I a -> I b) -> forall a b, psteps dst lk a b -> I a -> I b.
Proof. intros H. induction 1; eauto. Qed.
Lemma ps_mono dst (lk lk' : bytes -> Prop) a b : (forall t, lk t -> lk' t) -> psteps dst lk a b -> psteps dst lk' a b.
Proof.
  intros Hl. induction 1 as [|a b c H _ IH]; [constructor|]. econstructor; [|exact IH].
  inversion H; subst; [eapply PsTick|eapply PsLog|eapply PsMkdir|eapply PsUnlink|eapply PsPrune|eapply PsLink|eapply PsCreate|eapply PsOpen|eapply PsFile]; eauto.
Qed.

Section Ops.
  Context (dst : loc) (lk : bytes -> Prop).
  Hypothesis Hdst : Forall normal dst.

  Lemma tick_steps s s' f : tick s = (s', f) -> psteps dst lk s s'.
  Proof. unfold tick. intros E. injection E as <- <-. apply ps_one. constructor. Qed.

  Lemma stat_steps s b p s' r : sys_stat s b p = (s', r) -> psteps dst lk s s'.
  Proof.
    unfold sys_stat. destruct (tick s) as [s1 fl] eqn:Ht. apply tick_steps in Ht. intros E.
    enough (s' = s1) by (subst; exact Ht). destruct fl; [congruence|].
    destruct (resolve_path s1 b p); try congruence. destruct (f_tree s1 a); congruence.
  Qed.

  Lemma mkdir_steps s q m s' r : at_or_below q dst -> sys_mkdir s (render q) m = (s', r) -> psteps dst lk s s'.
  Proof.
    unfold sys_mkdir. destruct (tick s) as [s1 fl] eqn:Ht. apply tick_steps in Ht. intros Hq E.
    destruct fl; [injection E as <- <-; exact Ht|].
    destruct (resolve_path s1 false (render q)) as [l| | |] eqn:Er; try (injection E as <- <-; exact Ht).
    destruct (f_tree s1 l) eqn:El; injection E as <- <-; [exact Ht|].
    eapply ps_trans; [exact Ht|]. apply ps_one. eapply PsMkdir; eauto.
  Qed.

  Lemma mkdir_all_unfold s rcs m : mkdir_all s rcs m =
    let p := slash :: join_slash (rev rcs) in
    let '(s, r) := sys_stat s true p in
    match r with
    | Ok n => if is_dir n then (s, None) else (s, Some ENotDir)
    | _ =>
        let '(s, e) := match rcs with _ :: (_ :: _) as rcs' => mkdir_all s rcs' m | _ => (s, None) end in
        match e with
        | Some _ => (s, e)
        | None =>
            let '(s, e) := sys_mkdir s p m in
            match e with
            | None => (s, None)
            | Some _ =>
                let '(s, r) := sys_stat s false p in
                match r with
                | Ok n => if is_dir n then (s, None) else (s, e)
                | _ => (s, e)
                end
            end
        end
    end.
  Proof. destruct rcs; reflexivity. Qed.

  Lemma mkdir_tail_steps q m s s' r : at_or_below q dst ->
    (let '(s, e) := sys_mkdir s (render q) m in
     match e with
     | None => (s, None)
     | Some _ => let '(s, r) := sys_stat s false (render q) in
                 match r with Ok n => if is_dir n then (s, None) else (s, e) | _ => (s, e) end
     end) = (s', r) -> psteps dst lk s s'.
  Proof.
    intros Hq. destruct (sys_mkdir s (render q) m) as [s1 r1] eqn:E1. apply mkdir_steps in E1; [|exact Hq].
    destruct r1; [|intros E; injection E as <- <-; exact E1].
    destruct (sys_stat s1 false (render q)) as [s2 r2] eqn:E2. apply stat_steps in E2. pose proof (ps_trans _ _ _ _ _ E1 E2) as H2.
    destruct r2 as [n| | |]; [destruct (is_dir n)| | |]; intros E; injection E as <- <-; exact H2.
  Qed.

  Lemma mkdir_all_steps m rcs : forall s s' r, at_or_below (rev rcs) dst -> mkdir_all s rcs m = (s', r) -> psteps dst lk s s'.
  Proof.
    induction rcs as [|c rcs IH]; intros s s' r Hq E; rewrite mkdir_all_unfold in E; cbv zeta in E.
    all: match type of E with context [sys_stat ?s0 true (slash :: join_slash ?x)] => change (slash :: join_slash x) with (render x) in E end.
    all: match type of E with context [sys_stat ?s0 true ?y] => destruct (sys_stat s0 true y) as [s1 r1] eqn:E1 end; apply stat_steps in E1.
    - destruct r1 as [n| | |]; [destruct (is_dir n); injection E as <- <-; exact E1| | |];
      (eapply ps_trans; [exact E1|eapply mkdir_tail_steps; [exact Hq|exact E]]).
    - assert (Hq' : at_or_below (rev rcs) dst)
        by (eapply below_trans; [|exact Hq]; cbn [rev]; apply below_app).
      destruct r1 as [n| | |]; [destruct (is_dir n); injection E as <- <-; exact E1| | |].
      all: match type of E with context [match ?t with (_, _) => _ end] => destruct t as [s2 r2] eqn:E2 end.
      all: assert (H2 : psteps dst lk s s2)
             by (destruct rcs as [|c' rcs']; [injection E2 as <- <-; exact E1|eapply ps_trans; [exact E1|eapply IH; [exact Hq'|exact E2]]]).
      all: destruct r2; [injection E as <- <-; exact H2|].
      all: eapply ps_trans; [exact H2|eapply mkdir_tail_steps; [exact Hq|exact E]].
  Qed.

  Lemma log_steps s q : q = dst \/ q = removelast dst -> psteps dst lk s (logged s (render q)).
  Proof. intros Hq. apply ps_one. constructor. destruct Hq as [-> | ->]; auto. Qed.

  Lemma os_lstat_steps s s' r : os_lstat s (render dst) = (s', r) -> psteps dst lk s s'.
  Proof. intros E. eapply ps_trans; [apply (log_steps s dst); auto|]. eapply stat_steps. exact E. Qed.

  Lemma os_mkdir_all_steps s q m s' r : q = dst \/ q = removelast dst -> os_mkdir_all s (render q) m = (s', r) -> psteps dst lk s s'.
  Proof.
    intros Hq E. eapply ps_trans; [apply (log_steps s q); auto|]. unfold os_mkdir_all in E.
    assert (Hn : Forall normal q) by (destruct Hq as [-> | ->]; [exact Hdst|apply Forall_removelast; exact Hdst]).
    rewrite pcomps_render in E by exact Hn. eapply mkdir_all_steps; [|exact E]. rewrite rev_involutive.
    destruct Hq as [-> | ->]; [apply below_refl|apply removelast_below].
  Qed.

  Lemma os_remove_steps s s' r : os_remove s (render dst) = (s', r) -> psteps dst lk s s'.
  Proof.
    unfold os_remove. destruct (tick (logged s (render dst))) as [s1 fl] eqn:Ht. apply tick_steps in Ht.
    assert (H1 : psteps dst lk s s1) by (eapply ps_trans; [apply (log_steps s dst); auto|exact Ht]).
    intros E. destruct fl; [injection E as <- <-; exact H1|].
    destruct (resolve_path s1 false (render dst)) as [l| | |] eqn:Er; try (injection E as <- <-; exact H1).
    destruct (f_tree s1 l) as [[| |]|] eqn:El; injection E as <- <-; try exact H1;
      (eapply ps_trans; [exact H1|]; apply ps_one; eapply PsUnlink; eauto).
  Qed.

  Lemma left_over_closed k l a b : at_or_below l a -> at_or_below a b -> left_over k l b = true -> left_over k l a = true.
  Proof.
    unfold left_over. rewrite !forallb_forall. intros Ha Hb H i Hi. apply in_seq in Hi.
    pose proof (below_len _ _ Ha). pose proof (below_len _ _ Hb). destruct Hb as [r ->].
    replace (firstn i a) with (firstn i (a ++ r)).
    - apply H. apply in_seq. rewrite app_length. lia.
    - rewrite firstn_app. replace (i - length a)%nat with 0%nat by lia. cbn. apply app_nil_r.
  Qed.

  Lemma os_remove_all_steps s s' r : os_remove_all s (render dst) = (s', r) -> psteps dst lk s s'.
  Proof.
    unfold os_remove_all. pose proof (log_steps s dst (or_introl eq_refl)) as H0.
    change (match render dst with [] => ?a | _ => ?b end) with b.
    destruct (ends_with_dot (render dst)); [intros E; injection E as <- <-; exact H0|].
    destruct (tick (logged s (render dst))) as [s1 fl] eqn:Ht. apply tick_steps in Ht.
    assert (H1 : psteps dst lk s s1) by (eapply ps_trans; eassumption).
    assert (Hp : forall l k, resolve_path s1 false (render dst) = Ok l -> (forall a b, at_or_below l a -> at_or_below a b -> k b = true -> k a = true) ->
       psteps dst lk s (prune s1 l k)) by (intros l k Hl Hk; eapply ps_trans; [exact H1|]; apply ps_one; eapply PsPrune; eauto).
    intros E. destruct (resolve_path s1 false (render dst)) as [l|e| |] eqn:Er.
    - specialize (fun k => Hp l k eq_refl). destruct fl.
      + injection E as <- <-. apply Hp. apply left_over_closed.
      + destruct (_ || _); injection E as <- <-; apply Hp; [|discriminate].
        intros a b Ha Hb Hk. apply loc_eqb_eq in Hk. subst b. apply loc_eqb_eq. apply below_antisym; assumption.
    - destruct fl; injection E as <- <-; exact H1.
    - destruct fl; injection E as <- <-; exact H1.
    - destruct fl; injection E as <- <-; exact H1.
  Qed.

  Lemma os_symlink_steps s t s' r : lk t -> os_symlink s t (render dst) = (s', r) -> psteps dst lk s s'.
  Proof.
    intros Hk. unfold os_symlink. destruct (tick (logged s (render dst))) as [s1 fl] eqn:Ht. apply tick_steps in Ht.
    assert (H1 : psteps dst lk s s1) by (eapply ps_trans; [apply (log_steps s dst); auto|exact Ht]).
    intros E. destruct fl; [injection E as <- <-; exact H1|].
    destruct (resolve_path s1 false (render dst)) as [l| | |] eqn:Er; try (injection E as <- <-; exact H1).
    destruct (f_tree s1 l) as [n|] eqn:El; injection E as <- <-; try exact H1.
    eapply ps_trans; [exact H1|]; apply ps_one; eapply PsLink; eauto.
  Qed.

  Lemma os_open_steps s m s' r : os_open_create s (render dst) m = (s', r) -> psteps dst lk s s'.
  Proof.
    unfold os_open_create. destruct (tick (logged s (render dst))) as [s1 fl] eqn:Ht. apply tick_steps in Ht.
    assert (H1 : psteps dst lk s s1) by (eapply ps_trans; [apply (log_steps s dst); auto|exact Ht]).
    intros E. destruct fl; [injection E as <- <-; exact H1|].
    destruct (resolve_path s1 true (render dst)) as [l| | |] eqn:Er; try (injection E as <- <-; exact H1).
    cbv zeta in E. destruct (f_tree s1 l) as [[| |i]|] eqn:El; try (injection E as <- <-; exact H1).
    - injection E as <- <-. eapply ps_trans; [exact H1|]; apply ps_one; eapply PsOpen; eauto.
    - injection E as <- <-. eapply ps_trans; [exact H1|]. eapply PsCons; [eapply PsCreate; eauto|].
      apply ps_one.
      match goal with |- pstep _ _ ?a _ => apply (PsOpen dst lk a l (f_next s1)) end; [|cbn; rewrite loc_eqb_refl; reflexivity].
      assert (Hlast : resolve_path (with_next (set_node (set_ino s1 (f_next s1) (MkIno [] [] (Z.land (perm m) (Z.lnot (f_umask s1))))) l (Some (FFile (f_next s1)))) (S (f_next s1))) true (render dst) = Ok l); [|exact Hlast].
      revert Er El. unfold resolve_path. cbn [f_wd with_next set_node set_ino with_tree with_ino].
      assert (Hg : forall n cur cs, resolve s1 true n cur cs = Ok l -> f_tree s1 l = None ->
        forall s2, (forall l', l' <> l -> f_tree s2 l' = f_tree s1 l') -> f_tree s2 l = Some (FFile (f_next s1)) ->
        resolve s2 true n cur cs = Ok l).
      { clear. induction n as [|n IHn]; intros cur cs; revert cur; induction cs as [|c cs IHc]; intros cur Hr Hl s2 Ho Hs; rewrite ?resolve_nil in *; auto.
        - rewrite resolve_cons in Hr |- *. destruct (bytes_eqb c dot); [apply IHc; auto|]. destruct (bytes_eqb c dotdot); [apply IHc; auto|].
          destruct (loc_dec (cur ++ [c]) l) as [El|El].
          + rewrite El in *. rewrite Hl in Hr. rewrite Hs. destruct (is_last_comp cs); [reflexivity|discriminate].
          + rewrite Ho by exact El. destruct (f_tree s1 (cur ++ [c])) as [[| |]|]; auto; try (destruct (is_last_comp cs && negb true); auto).
        - rewrite resolve_cons in Hr |- *. destruct (bytes_eqb c dot); [apply IHc; auto|]. destruct (bytes_eqb c dotdot); [apply IHc; auto|].
          destruct (loc_dec (cur ++ [c]) l) as [El|El].
          + rewrite El in *. rewrite Hl in Hr. rewrite Hs. destruct (is_last_comp cs); [reflexivity|discriminate].
          + rewrite Ho by exact El. destruct (f_tree s1 (cur ++ [c])) as [[| |]|]; auto; try (destruct (is_last_comp cs && negb true); auto). }
      intros Er El. eapply Hg; [exact Er|exact El| |]; cbn.
      + intros l' Hl'. rewrite (proj2 (loc_eqb_neq l' l) Hl'). reflexivity.
      + rewrite loc_eqb_refl. reflexivity.
  Qed.

  (** calls on open files *)
  Lemma file_step s h x s1 (s2 : fsys) : f_hand s h = Some x -> fst (tick s) = s1 ->
    f_tree s2 = f_tree s1 -> (forall i, i <> h_ino x -> f_ino s2 i = f_ino s1 i) ->
    f_next s2 = f_next s1 -> (forall j, j <> h -> f_hand s2 j = f_hand s1 j) ->
    (f_hand s2 h = None \/ exists p, f_hand s2 h = Some (MkH (h_ino x) p)) ->
    f_nexth s2 = f_nexth s1 -> f_wd s2 = f_wd s1 -> f_umask s2 = f_umask s1 -> f_log s2 = f_log s1 -> psteps dst lk s s2.
  Proof.
    intros Hh Ht. cbn in Ht. subst s1. cbn. intros. eapply PsCons; [apply (PsTick _ _ s (fun n => f_orc s (S n)))|].
    apply ps_one. eapply (PsFile _ _ _ _ h x); cbn; auto.
  Qed.

  Ltac filestep :=
    match goal with
    | Hx : f_hand ?s ?h = Some ?x |- _ => eapply (file_step s h x); [exact Hx|reflexivity|..]; cbn; auto;
        try (intros i Hi; apply Nat.eqb_neq in Hi; rewrite Hi; reflexivity);
        try (right; exists (h_pos x); rewrite Hx; destruct x; reflexivity)
    end.

  Lemma f_chmod_steps s h m s' r : f_chmod s h m = (s', r) -> psteps dst lk s s'.
  Proof.
    unfold f_chmod, on_file. destruct (f_hand s h) as [x|] eqn:Hx; [|intros E; injection E as <- <-; constructor].
    unfold tick. intros E. destruct (f_orc s 0); injection E as <- <-; filestep.
  Qed.
  Lemma f_seek_steps s h m s' r : f_seek s h m = (s', r) -> psteps dst lk s s'.
  Proof.
    unfold f_seek, on_file. destruct (f_hand s h) as [x|] eqn:Hx; [|intros E; injection E as <- <-; constructor].
    unfold tick. intros E. destruct (f_orc s 0); [injection E as <- <-; filestep|].
    destruct (m <? 0); injection E as <- <-; filestep. right. eexists. rewrite Nat.eqb_refl. reflexivity.
  Qed.
  Lemma f_truncate_steps s h m s' r : f_truncate s h m = (s', r) -> psteps dst lk s s'.
  Proof.
    unfold f_truncate, on_file. destruct (f_hand s h) as [x|] eqn:Hx; [|intros E; injection E as <- <-; constructor].
    unfold tick. intros E. destruct (f_orc s 0); [injection E as <- <-; filestep|].
    destruct (m <? 0); injection E as <- <-; filestep.
  Qed.
  Lemma f_write_steps s h d s' r : f_write s h d = (s', r) -> psteps dst lk s s'.
  Proof.
    unfold f_write, on_file. destruct (f_hand s h) as [x|] eqn:Hx; [|intros E; injection E as <- <-; constructor].
    unfold tick. intros E. destruct (match f_orc s 0 with Some f => firstn (fl_n f) d | None => d end) eqn:Ed; injection E as <- <-; filestep.
    right. eexists. rewrite Nat.eqb_refl. reflexivity.
  Qed.
  Lemma f_sync_steps s h s' r : f_sync s h = (s', r) -> psteps dst lk s s'.
  Proof.
    unfold f_sync, on_file. destruct (f_hand s h) as [x|] eqn:Hx; [|intros E; injection E as <- <-; constructor].
    unfold tick. intros E. destruct (f_orc s 0); injection E as <- <-; filestep.
  Qed.
  Lemma f_close_steps s h s' r : f_close s h = (s', r) -> psteps dst lk s s'.
  Proof.
    unfold f_close, on_file. destruct (f_hand s h) as [x|] eqn:Hx; [|intros E; injection E as <- <-; constructor].
    unfold tick. intros E. injection E as <- <-; filestep. left. rewrite Nat.eqb_refl. reflexivity.
  Qed.
  Lemma ox_preallocate_steps s h n s' r : ox_preallocate s h n = (s', r) -> psteps dst lk s s'.
  Proof.
    unfold ox_preallocate, on_file. destruct (f_hand s h) as [x|] eqn:Hx; [|intros E; injection E as <- <-; constructor].
    unfold tick. intros E. injection E as <- <-; filestep.
  Qed.
  Lemma legacy_preallocate_steps s h n s' r : legacy_preallocate s h n = (s', r) -> psteps dst lk s s'.
  Proof.
    unfold legacy_preallocate. destruct (f_hand s h) as [x|]; [|intros E; injection E as <- <-; constructor].
    destruct (f_seek s h _) as [s1 r1] eqn:E1. apply f_seek_steps in E1.
    destruct r1; [intros E; injection E as <- <-; exact E1|].
    destruct (0 <? _); [|intros E; injection E as <- <-; exact E1].
    destruct (f_write s1 h _) as [s2 [n2 r2]] eqn:E2. apply f_write_steps in E2. intros E; injection E as <- <-.
    eapply ps_trans; eassumption.
  Qed.
  Lemma fk_closew_steps k w k' r : fk_closew_ k w = (k', r) -> psteps dst lk (fk_fs k) (fk_fs k').
  Proof.
    unfold fk_closew_. destruct (fk_ws k w) as [[h|]|]; try (intros E; injection E as <- <-; constructor).
    destruct (f_close (fk_fs k) h) as [s1 r1] eqn:E1. apply f_close_steps in E1. intros E; injection E as <- <-; exact E1.
  Qed.
  Lemma fk_close_steps k k' r : fk_close k = (k', r) -> psteps dst lk (fk_fs k) (fk_fs k').
  Proof.
    unfold fk_close. destruct (fk_writer k) as [w|]; [|intros E; injection E as <- <-; constructor].
    destruct (fk_closew_ k w) as [k1 r1] eqn:E1. apply fk_closew_steps in E1. intros E; injection E as <- <-; exact E1.
  Qed.

  Section Entry.
  Context (c : fcfg) (e : entry).
  Hypothesis Hd : dest_path (fc_wd c) (fc_dir c) (en_path e) = Ok (render dst).

  Lemma fk_mkdir_steps k k' r : fk_mkdir c k e = (k', r) -> psteps dst lk (fk_fs k) (fk_fs k').
  Proof.
    unfold fk_mkdir. destruct (should_ignore (en_path e)); [intros E; injection E as <- <-; constructor|]. rewrite Hd.
    destruct (os_lstat (fk_fs k) (render dst)) as [s1 r1] eqn:E1. apply os_lstat_steps in E1.
    assert (K : forall s r, psteps dst lk (fk_fs k) s ->
       (let '(s, er) := os_mkdir_all s (render dst) dir_mode in (set_fs k s, option_map with_stack er)) = (k', r) -> psteps dst lk (fk_fs k) (fk_fs k')).
    { intros s r0 Hs. destruct (os_mkdir_all s (render dst) dir_mode) as [s2 r2] eqn:E2. apply os_mkdir_all_steps in E2; [|auto].
      intros E; injection E as <- <-. eapply ps_trans; eassumption. }
    destruct r1 as [n| | |]; [|apply K; exact E1..].
    destruct (is_dir n); [intros E; injection E as <- <-; exact E1|].
    destruct (os_remove s1 (render dst)) as [s2 r2] eqn:E2. apply os_remove_steps in E2. pose proof (ps_trans _ _ _ _ _ E1 E2) as H2.
    destruct r2; [intros E; injection E as <- <-; exact H2|]. apply K. exact H2.
  Qed.

  Lemma dir_of_dst : path_dir (render dst) = render (removelast dst).
  Proof. apply path_dir_render. exact Hdst. Qed.

  Lemma create_file_steps s s' r : create_file c s e = (s', r) -> psteps dst lk s s'.
  Proof.
    unfold create_file. rewrite Hd, dir_of_dst.
    destruct (os_mkdir_all s _ lucky_mode) as [s1 r1] eqn:E1. apply os_mkdir_all_steps in E1; [|auto].
    destruct r1; [intros E; injection E as <- <-; exact E1|].
    destruct (os_lstat s1 (render dst)) as [s2 r2] eqn:E2. apply os_lstat_steps in E2. pose proof (ps_trans _ _ _ _ _ E1 E2) as H2.
    destruct (match r2 with Ok n => if is_link n then os_remove_all s2 (render dst) else (s2, None) | _ => (s2, None) end) as [s3 r3] eqn:E3.
    assert (H3 : psteps dst lk s s3).
    { destruct r2 as [n| | |]; try (injection E3 as <- <-; exact H2). destruct (is_link n); [|injection E3 as <- <-; exact H2].
      apply os_remove_all_steps in E3. eapply ps_trans; eassumption. }
    destruct r3; [intros E; injection E as <- <-; exact H3|]. cbv zeta.
    destruct (os_open_create s3 (render dst) _) as [s4 r4] eqn:E4. apply os_open_steps in E4. pose proof (ps_trans _ _ _ _ _ H3 E4) as H4.
    destruct r4 as [h| | |]; try (intros E; injection E as <- <-; exact H4).
    destruct r2 as [n| | |]; try (intros E; injection E as <- <-; exact H4).
    destruct (f_chmod s4 h _) as [s5 r5] eqn:E5. apply f_chmod_steps in E5. pose proof (ps_trans _ _ _ _ _ H4 E5) as H5.
    destruct r5; intros E; injection E as <- <-; exact H5.
  Qed.

  Lemma fk_getw_steps k k' r : fk_getw c k e = (k', r) -> psteps dst lk (fk_fs k) (fk_fs k').
  Proof.
    unfold fk_getw. destruct (should_ignore (en_path e)); [intros E; injection E as <- <-; constructor|].
    destruct (create_file c (fk_fs k) e) as [s1 r1] eqn:E1. apply create_file_steps in E1.
    destruct r1 as [h| | |]; try (intros E; injection E as <- <-; exact E1).
    destruct (if 0 <? en_woff e then f_seek s1 h (en_woff e) else (s1, None)) as [s2 r2] eqn:E2.
    assert (H2 : psteps dst lk (fk_fs k) s2).
    { destruct (0 <? en_woff e); [|injection E2 as <- <-; exact E1]. apply f_seek_steps in E2. eapply ps_trans; eassumption. }
    destruct r2; [intros E; injection E as <- <-; exact H2|].
    destruct (f_truncate s2 h (en_woff e)) as [s3 r3] eqn:E3. apply f_truncate_steps in E3. pose proof (ps_trans _ _ _ _ _ H2 E3) as H3.
    destruct r3; [intros E; injection E as <- <-; exact H3|].
    destruct (fk_close (set_fs k s3)) as [k4 r4] eqn:E4. apply fk_close_steps in E4. cbn [fk_fs set_fs] in E4.
    intros E; injection E as <- <-. eapply ps_trans; eassumption.
  Qed.

  Lemma fk_prealloc_steps k k' r : fk_prealloc c k e = (k', r) -> psteps dst lk (fk_fs k) (fk_fs k').
  Proof.
    unfold fk_prealloc. destruct (should_ignore (en_path e)); [intros E; injection E as <- <-; constructor|].
    destruct (create_file c (fk_fs k) e) as [s1 r1] eqn:E1. apply create_file_steps in E1.
    destruct r1 as [h| | |]; try (intros E; injection E as <- <-; exact E1).
    destruct (if 0 <? en_usize e then if fc_legacy c then legacy_preallocate s1 h (en_usize e) else ox_preallocate s1 h (en_usize e) else (s1, None)) as [s2 r2] eqn:E2.
    assert (H2 : psteps dst lk (fk_fs k) s2).
    { destruct (0 <? en_usize e); [|injection E2 as <- <-; exact E1].
      destruct (fc_legacy c); [apply legacy_preallocate_steps in E2|apply ox_preallocate_steps in E2]; eapply ps_trans; eassumption. }
    destruct (f_close s2 h) as [s3 r3] eqn:E3. apply f_close_steps in E3. intros E; injection E as <- <-. eapply ps_trans; eassumption.
  Qed.

  Lemma fk_symlink_steps k t k' r : lk t -> fk_symlink c k e t = (k', r) -> psteps dst lk (fk_fs k) (fk_fs k').
  Proof.
    intros Hk. unfold fk_symlink. destruct (should_ignore (en_path e)); [intros E; injection E as <- <-; constructor|]. rewrite Hd.
    assert (K : (let '(s, er) := os_remove_all (fk_fs k) (render dst) in
               match er with
               | Some x => (set_fs k s, Some (with_stack x))
               | None =>
                   let '(s, er) := os_mkdir_all s (path_dir (render dst)) lucky_mode in
                   match er with
                   | Some x => (set_fs k s, Some (with_stack x))
                   | None =>
                       let '(s, er) := os_symlink s t (render dst) in
                       (set_fs k s, option_map with_stack er)
                   end
               end) = (k', r) -> psteps dst lk (fk_fs k) (fk_fs k')).
    { rewrite dir_of_dst.
      destruct (os_remove_all (fk_fs k) (render dst)) as [s1 r1] eqn:E1. apply os_remove_all_steps in E1.
      destruct r1; [intros E; injection E as <- <-; exact E1|].
      destruct (os_mkdir_all s1 _ lucky_mode) as [s2 r2] eqn:E2. apply os_mkdir_all_steps in E2; [|auto]. pose proof (ps_trans _ _ _ _ _ E1 E2) as H2.
      destruct r2; [intros E; injection E as <- <-; exact H2|].
      destruct (os_symlink s2 t (render dst)) as [s3 r3] eqn:E3. apply os_symlink_steps in E3; [|exact Hk].
      intros E; injection E as <- <-. eapply ps_trans; eassumption. }
    destruct (check_link _ _ _ _); try exact K. intros E; injection E as <- <-; constructor.
  Qed.
  End Entry.

  Lemma fk_write_steps k w d k' r : fk_write k w d = (k', r) -> psteps dst lk (fk_fs k) (fk_fs k').
  Proof.
    unfold fk_write. destruct w as [w|]; [|intros E; injection E as <- <-; constructor].
    destruct (fk_ws k w) as [[h|]|]; try (intros E; injection E as <- <-; constructor).
    destruct (f_write (fk_fs k) h d) as [s1 [n1 r1]] eqn:E1. apply f_write_steps in E1. intros E; injection E as <- <-; exact E1.
  Qed.
  Lemma fk_sync_steps k w k' r : fk_sync k w = (k', r) -> psteps dst lk (fk_fs k) (fk_fs k').
  Proof.
    unfold fk_sync. destruct w as [w|]; [|intros E; injection E as <- <-; constructor].
    destruct (fk_ws k w) as [[h|]|]; try (intros E; injection E as <- <-; constructor).
    destruct (f_sync (fk_fs k) h) as [s1 r1] eqn:E1. apply f_sync_steps in E1. intros E; injection E as <- <-; exact E1.
  Qed.
End Ops.
