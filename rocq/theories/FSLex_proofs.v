(** FSLex_proofs.v -- what the os functions do when no symlinks are in the way. *)
From Verif Require Import Base Base_proofs Path PathSpec Path_proofs Source Sink FS FS_proofs FolderSink FSteps_proofs.

Definition clean (s : fsys) : Prop := forall n, f_orc s n = None.
Definition keeps (s s' : fsys) : Prop :=
  f_ino s' = f_ino s /\ f_next s' = f_next s /\ f_hand s' = f_hand s /\ f_nexth s' = f_nexth s /\
  f_wd s' = f_wd s /\ f_umask s' = f_umask s /\ (clean s -> clean s').
Definition eqfs (s s' : fsys) : Prop := keeps s s' /\ f_tree s' = f_tree s.

Lemma keeps_refl s : keeps s s. Proof. unfold keeps. splits; auto. Qed.
Lemma keeps_trans a b c : keeps a b -> keeps b c -> keeps a c.
Proof. unfold keeps. intros (A1 & A2 & A3 & A4 & A5 & A6 & A7) (B1 & B2 & B3 & B4 & B5 & B6 & B7). splits; try congruence. auto. Qed.
Lemma eqfs_refl s : eqfs s s. Proof. split; [apply keeps_refl|reflexivity]. Qed.
Lemma eqfs_trans a b c : eqfs a b -> eqfs b c -> eqfs a c.
Proof. intros [A1 A2] [B1 B2]. split; [eapply keeps_trans; eassumption|congruence]. Qed.

Lemma eqfs_log s p : eqfs s (logged s p).
Proof. unfold eqfs, keeps, clean. cbn. splits; auto. Qed.
Lemma eqfs_tick s s' f : tick s = (s', f) -> eqfs s s' /\ (clean s -> f = None).
Proof. unfold tick. intros E. injection E as <- <-. unfold eqfs, keeps, clean. cbn. splits; auto. Qed.

Lemma nolink_eq s s' l : f_tree s' = f_tree s -> nolink s l -> nolink s' l.
Proof. unfold nolink. intros ->. auto. Qed.
Lemma alldirs_eq s s' l : f_tree s' = f_tree s -> alldirs s l -> alldirs s' l.
Proof. unfold alldirs. intros ->. auto. Qed.

(** resolution went through directories *)
Lemma resolve_through s b n cs : forall cur l,
  Forall normal cs -> nolink s (cur ++ cs) -> (b = true -> forall t, f_tree s (cur ++ cs) <> Some (FLink t)) ->
  resolve s b n cur cs = Ok l ->
  forall q, at_or_below cur q -> at_or_below q (cur ++ cs) -> q <> cur -> q <> cur ++ cs -> exists m, f_tree s q = Some (FDir m).
Proof.
  induction cs as [|c cs IH]; intros cur l Hn Hl Hb Hr q H1 H2 H3 H4.
  - rewrite app_nil_r in *. exfalso. apply H3. apply below_antisym; assumption.
  - inversion Hn as [|? ? Hc Hcs]; subst. destruct (normal_flags c Hc) as [F1 F2].
    rewrite resolve_cons, F1, F2 in Hr. rewrite (app_cons_assoc cur c cs) in *.
    assert (Hq : at_or_below (cur ++ [c]) q).
    { destruct (below_total (cur ++ [c]) q _ (below_app _ _) H2) as [H|H]; [exact H|].
      apply below_snoc in H. destruct H as [H| ->]; [|apply below_refl]. exfalso. apply H3. apply below_antisym; assumption. }
    assert (Hd : cs <> [] -> exists m, f_tree s (cur ++ [c]) = Some (FDir m)).
    { intros Hne. destruct (f_tree s (cur ++ [c])) as [[m|t|i]|] eqn:E; eauto.
      - exfalso. apply (Hl (cur ++ [c]) t); [apply below_app| |exact E]. destruct cs; [congruence|apply app_cons_ne].
      - destruct cs; [congruence|discriminate].
      - destruct cs; [congruence|discriminate]. }
    destruct cs as [|c' cs].
    { rewrite app_nil_r in *. exfalso. apply H4. apply below_antisym; assumption. }
    destruct (Hd ltac:(discriminate)) as [m Hm]. rewrite Hm in Hr.
    destruct (loc_dec q (cur ++ [c])) as [->|Hne]; [eauto|].
    eapply (IH (cur ++ [c])); eauto.
Qed.

Lemma resolve_path_through s b l l' : f_tree s [] <> None -> (forall t, f_tree s [] <> Some (FLink t)) -> (forall i, f_tree s [] <> Some (FFile i)) ->
  Forall normal l -> nolink s l -> (b = true -> forall t, f_tree s l <> Some (FLink t)) ->
  resolve_path s b (render l) = Ok l' -> l' = l /\ alldirs s l.
Proof.
  intros R1 R2 R3 Hn Hl Hb Hr. split; [eapply resolve_path_lex; eauto|].
  unfold resolve_path in Hr. rewrite is_abs_render, pcomps_render in Hr by exact Hn.
  intros q Hq Hne. destruct (loc_dec q []) as [->|Hq0].
  - destruct (f_tree s []) as [[m|t|i]|] eqn:E; [eauto|exfalso; eapply R2; eauto|exfalso; eapply R3; eauto|congruence].
  - eapply (resolve_through s b max_links l [] l'); cbn [app]; auto. exists q. reflexivity.
Qed.

(** the root is a directory; a node's parents are directories *)
Definition rooted (s : fsys) : Prop := exists m, f_tree s [] = Some (FDir m).
Definition parcl (s : fsys) : Prop := forall l, f_tree s l <> None -> alldirs s l.

Lemma through s b l l' : rooted s -> Forall normal l -> nolink s l -> (b = true -> forall t, f_tree s l <> Some (FLink t)) ->
  resolve_path s b (render l) = Ok l' -> l' = l /\ alldirs s l.
Proof. intros [m Hm]. apply resolve_path_through; congruence. Qed.

(** parents are directories or missing *)
Definition passable (s : fsys) (l : loc) : Prop := forall q n, at_or_below q l -> q <> l -> f_tree s q = Some n -> exists m, n = FDir m.
Lemma passable_nolink s l : passable s l -> nolink s l.
Proof. intros H q t Hq Hne E. destruct (H q _ Hq Hne E) as [m Hm]. discriminate. Qed.
Lemma passable_eq s s' l : f_tree s' = f_tree s -> passable s l -> passable s' l.
Proof. unfold passable. intros ->. auto. Qed.

Lemma resolve_passable s b n cs : forall cur, Forall normal cs -> passable s (cur ++ cs) -> (b = true -> forall t, f_tree s (cur ++ cs) <> Some (FLink t)) ->
  resolve s b n cur cs = Ok (cur ++ cs) \/ resolve s b n cur cs = Err ENoEnt /\ exists q, at_or_below q (cur ++ cs) /\ q <> cur ++ cs /\ f_tree s q = None.
Proof.
  induction cs as [|c cs IH]; intros cur Hn Hp Hb.
  - rewrite resolve_nil, app_nil_r. auto.
  - inversion Hn as [|? ? Hc Hcs]; subst. destruct (normal_flags c Hc) as [F1 F2].
    rewrite resolve_cons, F1, F2. rewrite (app_cons_assoc cur c cs) in *.
    destruct cs as [|c' cs].
    + rewrite app_nil_r in *. left. destruct (f_tree s (cur ++ [c])) as [[m|t|i]|] eqn:E; cbn [is_last_comp]; auto.
      * rewrite resolve_nil. reflexivity.
      * destruct b; [exfalso; eapply Hb; eauto|reflexivity].
    + destruct (f_tree s (cur ++ [c])) as [n0|] eqn:E.
      * destruct (Hp (cur ++ [c]) n0 (below_app _ _) (app_cons_ne _ _ _) E) as [m ->]. apply IH; auto.
      * right. split; [reflexivity|]. exists (cur ++ [c]). splits; auto; [apply below_app|apply app_cons_ne].
Qed.
Lemma resolve_path_passable s b l : Forall normal l -> passable s l -> (b = true -> forall t, f_tree s l <> Some (FLink t)) ->
  resolve_path s b (render l) = Ok l \/ resolve_path s b (render l) = Err ENoEnt /\ exists q, at_or_below q l /\ q <> l /\ f_tree s q = None.
Proof.
  intros Hn Hp Hb. unfold resolve_path. rewrite is_abs_render, pcomps_render by exact Hn. exact (resolve_passable s b max_links l [] Hn Hp Hb).
Qed.

(** ** stat *)
Lemma stat_lex s b l s' r : rooted s -> Forall normal l -> nolink s l -> (b = true -> forall t, f_tree s l <> Some (FLink t)) ->
  sys_stat s b (render l) = (s', r) ->
  eqfs s s' /\ (forall n, r = Ok n -> f_tree s l = Some n /\ alldirs s l) /\
  (clean s -> alldirs s l -> forall n, f_tree s l = Some n -> r = Ok n) /\ (clean s -> f_tree s l = None -> exists e, r = Err e) /\
  ((exists n, r = Ok n) \/ exists e, r = Err e).
Proof.
  intros Hr Hn Hl Hb E. unfold sys_stat in E. destruct (tick s) as [s1 fl] eqn:Ht. apply eqfs_tick in Ht. destruct Ht as [Hq Hc].
  assert (E1 : s' = s1) by (destruct fl; [congruence|]; destruct (resolve_path s1 b (render l)); try congruence; destruct (f_tree s1 a); congruence).
  subst s1. split; [exact Hq|]. destruct Hq as [Hk Ht]. destruct fl as [f|].
  - injection E as <-. splits; eauto; try discriminate; intros HH; specialize (Hc HH); discriminate.
  - clear Hc. assert (Hx : resolve_path s' b (render l) = resolve_path s b (render l)) by (apply resolve_path_ext; [exact Ht|apply Hk]).
    rewrite Hx, ?Ht in E.
    assert (Hthr : forall l', resolve_path s b (render l) = Ok l' -> l' = l /\ alldirs s l) by (intros l'; apply through; auto).
    splits.
    + intros n ->. destruct (resolve_path s b (render l)) as [l'| | |]; try discriminate. destruct (Hthr l' eq_refl) as [-> Ha].
      destruct (f_tree s l); [|discriminate]. split; [congruence|exact Ha].
    + intros _ Ha n Hnn. rewrite (resolve_path_dirs s b l Hn Ha Hb), Hnn in E. congruence.
    + intros _ Hnn. destruct (resolve_path s b (render l)) as [l'| | |]; try (injection E as <-; eauto).
      destruct (Hthr l' eq_refl) as [-> Ha]. rewrite Hnn in E. injection E as <-; eauto.
    + destruct (resolve_path s b (render l)) as [l'| | |]; try (injection E as <-; eauto).
      destruct (f_tree s l'); injection E as <-; eauto.
Qed.

(** ** directories that come into being on the way to [l] *)
Definition grown (l : loc) (s s' : fsys) : Prop :=
  (keeps s s' /\ (parcl s -> parcl s')) /\
  forall q, f_tree s' q = f_tree s q \/ (at_or_below q l /\ f_tree s q = None /\ exists m, f_tree s' q = Some (FDir m)).
Lemma eqfs_grown l s s' : eqfs s s' -> grown l s s'.
Proof. intros [H1 H2]. split; [split; [exact H1|unfold parcl, alldirs; rewrite H2; auto]|]. intros q. left. rewrite H2. reflexivity. Qed.
Lemma grown_trans l a b c : grown l a b -> grown l b c -> grown l a c.
Proof.
  intros [[A1 A3] A2] [[B1 B3] B2]. split; [split; [eapply keeps_trans; eassumption|auto]|]. intros q.
  destruct (A2 q) as [A|(A & A' & m & A'')], (B2 q) as [B|(B & B' & m' & B'')].
  - left. congruence.
  - right. splits; eauto. congruence.
  - right. splits; eauto. rewrite B. eauto.
  - congruence.
Qed.
Lemma grown_below l l' s s' : at_or_below l l' -> grown l s s' -> grown l' s s'.
Proof. intros Hl [A B]. split; [exact A|]. intros q. destruct (B q) as [H|(H & H')]; [auto|]. right. split; [eapply below_trans; eassumption|exact H']. Qed.
Lemma grown_dir l s s' q : grown l s s' -> forall m, f_tree s q = Some (FDir m) -> f_tree s' q = Some (FDir m).
Proof. intros [_ H] m Hm. destruct (H q) as [E|(_ & E & _)]; congruence. Qed.
Lemma grown_alldirs l l' s s' : grown l s s' -> alldirs s l' -> alldirs s' l'.
Proof. intros H Ha q Hq Hne. destruct (Ha q Hq Hne) as [m Hm]. exists m. eapply grown_dir; eauto. Qed.
Lemma grown_nolink l l' s s' : grown l s s' -> nolink s l' -> nolink s' l'.
Proof. intros [_ H] Ha q t Hq Hne E. destruct (H q) as [E'|(_ & _ & m & E')]; [|congruence]. apply (Ha q t Hq Hne). congruence. Qed.
Lemma grown_rooted l s s' : grown l s s' -> rooted s -> rooted s'.
Proof. intros H [m Hm]. exists m. eapply grown_dir; eauto. Qed.
Lemma grown_passable l l' s s' : grown l s s' -> passable s l' -> passable s' l'.
Proof. intros [_ H] Ha q n Hq Hne E. destruct (H q) as [E'|(_ & _ & m & E')]; [|exists m; congruence]. apply (Ha q n Hq Hne). congruence. Qed.

Lemma sys_mkdir_lex s l m s' r : rooted s -> Forall normal l -> nolink s l ->
  sys_mkdir s (render l) m = (s', r) ->
  grown l s s' /\ (r = None -> alldirs s l /\ f_tree s l = None /\ exists m', f_tree s' l = Some (FDir m')) /\
  (clean s -> alldirs s l -> f_tree s l = None -> r = None).
Proof.
  intros Hr Hn Hl E. unfold sys_mkdir in E. destruct (tick s) as [s1 fl] eqn:Ht. apply eqfs_tick in Ht. destruct Ht as [Hq Hc].
  destruct fl as [f|].
  { injection E as <- <-. splits; [apply eqfs_grown; exact Hq|discriminate|]. intros HH. specialize (Hc HH). discriminate. }
  clear Hc. assert (Hx : resolve_path s1 false (render l) = resolve_path s false (render l)) by (apply resolve_path_ext; apply Hq).
  rewrite Hx in E. pose proof (proj2 Hq) as Ht. rewrite ?Ht in E.
  assert (Hthr : forall l', resolve_path s false (render l) = Ok l' -> l' = l /\ alldirs s l) by (intros l'; apply through; auto; discriminate).
  destruct (resolve_path s false (render l)) as [l'|e| |] eqn:Er.
  2-4: injection E as <- <-; splits; [apply eqfs_grown; exact Hq|discriminate|];
       intros _ Ha _; rewrite (resolve_path_dirs s false l Hn Ha) in Er by discriminate; discriminate.
  destruct (Hthr l' eq_refl) as [-> Ha]. destruct (f_tree s l) as [n|] eqn:El; injection E as <- <-.
  - splits; [apply eqfs_grown; exact Hq|discriminate|congruence].
  - splits; auto.
    + split; [split|].
      * eapply keeps_trans; [apply Hq|]. unfold keeps, clean. cbn. splits; auto.
      * intros Hpa x Hxx q Hqx Hqn. cbn in *. rewrite Ht in *. destruct (loc_eqb q l) eqn:Eq; [eauto|].
        destruct (loc_eqb x l) eqn:Ex; [apply loc_eqb_eq in Ex; subst x; apply Ha; assumption|]. exact (Hpa x Hxx q Hqx Hqn).
      * intros q. cbn. destruct (loc_eqb q l) eqn:Eq; [|left; rewrite Ht; reflexivity]. apply loc_eqb_eq in Eq. subst q. right.
        splits; eauto. apply below_refl.
    + intros _. splits; auto. cbn. rewrite loc_eqb_refl. eauto.
Qed.

(** what is asked of a path to be created with MkdirAll: no symlinks, up to and including itself *)
Definition nolink_at (s : fsys) (l : loc) : Prop := forall q t, at_or_below q l -> f_tree s q <> Some (FLink t).
Lemma nolink_at_nolink s l : nolink_at s l -> nolink s l. Proof. intros H q t Hq _. exact (H q t Hq). Qed.
Lemma grown_nolink_at l l' s s' : grown l s s' -> nolink_at s l' -> nolink_at s' l'.
Proof. intros [_ H] Ha q t Hq E. destruct (H q) as [E'|(_ & _ & m & E')]; [|congruence]. apply (Ha q t Hq). congruence. Qed.

Lemma alldirs_snoc s l c : alldirs s (l ++ [c]) <-> alldirs s l /\ exists m, f_tree s l = Some (FDir m).
Proof.
  split.
  - intros H. split.
    + intros q Hq Hne. apply H; [eapply below_trans; [exact Hq|apply below_app]|]. intros ->. apply below_len in Hq. rewrite app_length in Hq. cbn in Hq. lia.
    + apply H; [apply below_app|]. intros E. exact (app_cons_ne l c [] E).
  - intros [H1 H2] q Hq Hne. apply below_snoc in Hq. destruct Hq as [Hq|Hq]; [|contradiction].
    destruct (loc_dec q l) as [->|Hn]; [exact H2|apply H1; assumption].
Qed.

Lemma mkdir_tail_lex l m s s' r : rooted s -> Forall normal l -> nolink s l ->
  (let '(s, e) := sys_mkdir s (render l) m in
     match e with
     | None => (s, None)
     | Some _ => let '(s, r) := sys_stat s false (render l) in
                 match r with Ok n => if is_dir n then (s, None) else (s, e) | _ => (s, e) end
     end) = (s', r) ->
  grown l s s' /\ (r = None -> alldirs s' l /\ exists m', f_tree s' l = Some (FDir m')) /\
  (clean s -> alldirs s l -> (forall n, f_tree s l = Some n -> exists m, n = FDir m) -> r = None).
Proof.
  intros Hro Hn Hl E. destruct (sys_mkdir s (render l) m) as [s1 r1] eqn:E1. apply sys_mkdir_lex in E1; auto.
  destruct E1 as (G1 & N1 & C1). destruct r1 as [e1|].
  2:{ injection E as <- <-. destruct (N1 eq_refl) as (A & _ & B). splits; auto. intros _. split; [eapply grown_alldirs; eauto|exact B]. }
  destruct (sys_stat s1 false (render l)) as [s2 r2] eqn:E2.
  apply stat_lex in E2; [|eapply grown_rooted; eauto|exact Hn|eapply grown_nolink; eauto|discriminate].
  destruct E2 as (Q2 & A2 & B2 & _ & _).
  assert (s' = s2) by (destruct r2 as [n| | |]; [destruct (is_dir n)|..]; congruence). subst s2.
  pose proof (grown_trans _ _ _ _ G1 (eqfs_grown l _ _ Q2)) as G. splits; auto.
  - intros ->. destruct r2 as [n| | |]; try discriminate. destruct (A2 n eq_refl) as [Hx Ha]. destruct n as [m'| |]; try discriminate.
    split; [apply (alldirs_eq s1); [apply Q2|exact Ha]|]. exists m'. rewrite (proj2 Q2). exact Hx.
  - intros Hc Ha Hd. destruct (f_tree s l) as [n|] eqn:El.
    + destruct (Hd n eq_refl) as [m' ->]. rewrite (B2 (proj2 (proj2 (proj2 (proj2 (proj2 (proj2 (proj1 (proj1 G1))))))) Hc) (grown_alldirs _ _ _ _ G1 Ha) (FDir m') (grown_dir _ _ _ _ G1 _ El)) in E.
      cbn [is_dir] in E. congruence.
    + discriminate (C1 Hc Ha eq_refl).
Qed.

Lemma mkdir_all_lex m rcs : forall s s' r, rooted s -> Forall normal (rev rcs) -> nolink_at s (rev rcs) ->
  mkdir_all s rcs m = (s', r) ->
  grown (rev rcs) s s' /\ (r = None -> alldirs s' (rev rcs) /\ exists m', f_tree s' (rev rcs) = Some (FDir m')) /\
  (clean s -> (forall q n, at_or_below q (rev rcs) -> f_tree s q = Some n -> exists m, n = FDir m) -> r = None).
Proof.
  induction rcs as [|c rcs IH]; intros s s' r Hro Hn Hl E; rewrite mkdir_all_unfold in E; cbv zeta in E.
  all: match type of E with context [sys_stat _ true (slash :: join_slash ?x)] => change (slash :: join_slash x) with (render x) in E end.
  all: match type of E with context [sys_stat ?s0 true ?y] => destruct (sys_stat s0 true y) as [s1 r1] eqn:E1 end.
  all: apply stat_lex in E1; [|exact Hro|exact Hn|apply nolink_at_nolink; exact Hl|intros _ t; apply Hl; apply below_refl].
  all: destruct E1 as (Hq & H1 & H2 & H3 & H4).
  all: assert (Hro1 : rooted s1) by (destruct Hro as [mr Hmr]; exists mr; rewrite (proj2 Hq); exact Hmr).
  - cbn [rev] in *. destruct r1 as [n|e| |]; [|clear H4|destruct H4 as [[? ?]|[? ?]]; discriminate..].
    + destruct (H1 n eq_refl) as [Hx Ha]. destruct (is_dir n) eqn:Ed; injection E as <- <-.
      * splits; auto; [apply eqfs_grown; exact Hq|]. intros _. split; [apply (alldirs_eq s); [apply Hq|exact Ha]|].
        destruct n as [mr| |]; try discriminate. exists mr. rewrite (proj2 Hq). exact Hx.
      * splits; [apply eqfs_grown; exact Hq|discriminate|]. intros _ Hd. destruct (Hd [] n (below_refl _) Hx) as [m' ->]. discriminate.
    + apply (mkdir_tail_lex []) in E; [|exact Hro1|constructor|apply (nolink_eq s); [apply Hq|apply nolink_at_nolink; exact Hl]].
      destruct E as (G & N & C). splits; auto; [eapply grown_trans; [apply eqfs_grown; exact Hq|exact G]|].
      intros Hc Hd. apply C; [apply Hq; exact Hc| |].
      * intros q [z Hz] Hne. destruct q; [congruence|discriminate].
      * rewrite (proj2 Hq). intros n. apply Hd. apply below_refl.
  - cbn [rev] in *. destruct r1 as [n|e| |]; [|clear H4|destruct H4 as [[? ?]|[? ?]]; discriminate..].
    + destruct (H1 n eq_refl) as [Hx Ha]. destruct (is_dir n) eqn:Ed; injection E as <- <-.
      * splits; auto; [apply eqfs_grown; exact Hq|]. intros _. split; [apply (alldirs_eq s); [apply Hq|exact Ha]|].
        destruct n as [mr| |]; try discriminate. exists mr. rewrite (proj2 Hq). exact Hx.
      * splits; [apply eqfs_grown; exact Hq|discriminate|]. intros _ Hd. destruct (Hd _ n (below_refl _) Hx) as [m' ->]. discriminate.
    + assert (Hn' : Forall normal (rev rcs)) by (apply Forall_app in Hn; tauto).
      assert (Hup : forall q, at_or_below q (rev rcs) -> at_or_below q (rev rcs ++ [c])) by (intros q Hqq; eapply below_trans; [exact Hqq|apply below_app]).
      assert (Hl1 : nolink_at s1 (rev rcs ++ [c])) by (unfold nolink_at; rewrite (proj2 Hq); exact Hl).
      match type of E with context [match ?t with (_, _) => _ end] => destruct t as [s2 r2] eqn:E2 end.
      assert (P2 : grown (rev rcs) s1 s2 /\ (r2 = None -> alldirs s2 (rev rcs) /\ exists m', f_tree s2 (rev rcs) = Some (FDir m')) /\
        (clean s1 -> (forall q n, at_or_below q (rev rcs) -> f_tree s1 q = Some n -> exists m, n = FDir m) -> r2 = None)).
      { destruct rcs as [|c' rcs'].
        - injection E2 as <- <-. cbn [rev app]. splits; auto; [apply eqfs_grown, eqfs_refl|]. intros _.
          split; [intros q [z Hz] Hne; destruct q; [congruence|discriminate]|]. exact Hro1.
        - eapply IH; [exact Hro1|exact Hn'| |exact E2]. intros q t Hqq. apply Hl1. apply Hup. exact Hqq. }
      destruct P2 as (G2 & N2 & C2).
      pose proof (grown_trans _ _ _ _ (eqfs_grown (rev rcs) _ _ Hq) G2) as G02.
      pose proof (grown_below _ (rev rcs ++ [c]) _ _ (below_app _ _) G02) as G02'.
      destruct r2 as [e2|].
      * injection E as <- <-. splits; auto; [discriminate|]. intros Hc Hd. discriminate C2; [apply Hq; exact Hc|].
        rewrite (proj2 Hq). intros q n Hqq. apply Hd. apply Hup. exact Hqq.
      * apply (mkdir_tail_lex (rev rcs ++ [c])) in E;
          [|eapply grown_rooted; [exact G02|exact Hro]|exact Hn|eapply grown_nolink; [exact G02|apply nolink_at_nolink; exact Hl]].
        destruct E as (G & N & C). splits; auto; [eapply grown_trans; [exact G02'|exact G]|].
        intros Hc Hd. apply C; [apply G02; exact Hc| |].
        -- apply alldirs_snoc. apply N2. reflexivity.
        -- intros n Ht. destruct (proj2 G02 (rev rcs ++ [c])) as [Ee|(_ & _ & mm & Ee)]; [|exists mm; congruence].
           apply (Hd (rev rcs ++ [c])); [apply below_refl|congruence].
Qed.

Lemma os_mkdir_all_lex s l m s' r : rooted s -> Forall normal l -> nolink_at s l ->
  os_mkdir_all s (render l) m = (s', r) ->
  grown l s s' /\ (r = None -> alldirs s' l /\ exists m', f_tree s' l = Some (FDir m')) /\
  (clean s -> (forall q n, at_or_below q l -> f_tree s q = Some n -> exists m, n = FDir m) -> r = None).
Proof.
  intros Hro Hn Hl E. unfold os_mkdir_all in E. rewrite pcomps_render in E by exact Hn.
  pose proof (eqfs_log s (render l)) as Hq.
  apply mkdir_all_lex in E; rewrite ?rev_involutive in *; auto.
Qed.

(** ** the other calls, at a location whose parents are not symlinks *)
Lemma os_lstat_lex s l s' r : rooted s -> Forall normal l -> nolink s l -> os_lstat s (render l) = (s', r) ->
  eqfs s s' /\ (forall n, r = Ok n -> f_tree s l = Some n /\ alldirs s l) /\
  (clean s -> alldirs s l -> forall n, f_tree s l = Some n -> r = Ok n) /\ (clean s -> f_tree s l = None -> exists e, r = Err e) /\
  ((exists n, r = Ok n) \/ exists e, r = Err e).
Proof.
  intros Hro Hn Hl E. unfold os_lstat in E. apply stat_lex in E; auto; discriminate.
Qed.

Definition set_at (s s' : fsys) (l : loc) (n : option fnode) : Prop :=
  f_tree s' l = n /\ forall q, q <> l -> f_tree s' q = f_tree s q.

Lemma os_remove_lex s l s' r : rooted s -> Forall normal l -> nolink s l -> os_remove s (render l) = (s', r) ->
  keeps s s' /\ ((f_tree s' = f_tree s /\ r <> None) \/
    (r = None /\ alldirs s l /\ set_at s s' l None /\ exists n, f_tree s l = Some n /\ is_dir n = false)) /\
  (clean s -> alldirs s l -> forall n, f_tree s l = Some n -> is_dir n = false -> r = None).
Proof.
  intros Hro Hn Hl E. unfold os_remove in E. destruct (tick (logged s (render l))) as [s1 fl] eqn:Ht. apply eqfs_tick in Ht. destruct Ht as [Hq Hc].
  pose proof (eqfs_trans _ _ _ (eqfs_log s (render l)) Hq) as Q. clear Hq.
  assert (Hc' : clean s -> fl = None) by (intros H; apply Hc; exact H). clear Hc.
  destruct fl as [f|].
  { injection E as <- <-. splits; [apply Q|left; split; [apply Q|discriminate]|]. intros HH. discriminate (Hc' HH). }
  assert (Hx : resolve_path s1 false (render l) = resolve_path s false (render l)) by (apply resolve_path_ext; apply Q).
  rewrite Hx in E. pose proof (proj2 Q) as Ht. rewrite ?Ht in E.
  destruct (resolve_path s false (render l)) as [l'|e| |] eqn:Er.
  2-4: injection E as <- <-; splits; [apply Q|left; split; [apply Q|discriminate]|];
       intros _ Ha; rewrite (resolve_path_dirs s false l Hn Ha) in Er by discriminate; discriminate.
  apply through in Er; auto; [|discriminate]. destruct Er as [-> Ha].
  assert (Kk : keeps s (set_node s1 l None)) by (eapply keeps_trans; [apply Q|]; unfold keeps, clean; cbn; splits; auto).
  assert (Hs : set_at s (set_node s1 l None) l None).
  { split; cbn; [rewrite loc_eqb_refl; reflexivity|]. intros q Hqq. rewrite (proj2 (loc_eqb_neq q l) Hqq), Ht. reflexivity. }
  destruct (f_tree s l) as [[m|t|i]|] eqn:El; injection E as <- <-.
  - splits; [apply Q|left; split; [apply Q|discriminate]|]. intros _ _ n Hnn. injection Hnn as <-. discriminate.
  - splits; auto. right. splits; eauto.
  - splits; auto. right. splits; eauto.
  - splits; [apply Q|left; split; [apply Q|discriminate]|]. discriminate.
Qed.

Lemma ends_with_dot_render l : Forall normal l -> ends_with_dot (render l) = false.
Proof.
  intros Hn. unfold ends_with_dot. apply orb_false_iff. split.
  - apply bytes_eqb_neq. unfold render, dot. intros E. change (s2b ".") with ["."%char] in E. injection E as E _. discriminate.
  - destruct (rev (render l)) as [|a [|b z]] eqn:E; try reflexivity.
    apply not_true_iff_false. rewrite andb_true_iff, !beqb_eq. intros [-> ->].
    assert (Er : render l = rev z ++ [slash] ++ dot).
    { rewrite <- (rev_involutive (render l)), E. cbn [rev]. rewrite <- !app_assoc. reflexivity. }
    pose proof (pcomps_render l Hn) as Hp. unfold pcomps in Hp. rewrite Er in Hp. change ([slash] ++ dot) with (slash :: dot) in Hp.
    rewrite split_slash_app_gen, filter_app in Hp.
    change (filter (fun c => negb (bytes_eqb c [])) (split_slash dot)) with [dot] in Hp.
    rewrite <- Hp in Hn. apply Forall_app in Hn. destruct Hn as [_ Hn]. inversion Hn as [|? ? (_ & Hd & _) _]. congruence.
Qed.

Lemma os_remove_all_lex s l s' r : rooted s -> Forall normal l -> l <> [] -> passable s l -> os_remove_all s (render l) = (s', r) ->
  keeps s s' /\ (forall q, f_tree s' q = f_tree s q \/ (at_or_below l q /\ f_tree s' q = None)) /\
  (r = None -> parcl s -> forall q, at_or_below l q -> f_tree s' q = None) /\ (clean s -> r = None) /\
  (parcl s -> parcl s').
Proof.
  intros Hro Hn Hne Hp E. unfold os_remove_all in E. change (match render l with [] => ?a | _ => ?b end) with b in E.
  rewrite (ends_with_dot_render l Hn) in E.
  destruct (tick (logged s (render l))) as [s1 fl] eqn:Ht. apply eqfs_tick in Ht. destruct Ht as [Hq Hc].
  pose proof (eqfs_trans _ _ _ (eqfs_log s (render l)) Hq) as Q. clear Hq.
  assert (Hc' : clean s -> fl = None) by (intros H; apply Hc; exact H). clear Hc.
  assert (Hx : resolve_path s1 false (render l) = resolve_path s false (render l)) by (apply resolve_path_ext; apply Q).
  rewrite Hx in E. pose proof (proj2 Q) as Ht.
  assert (Hpc1 : parcl s -> parcl s1) by (unfold parcl, alldirs; rewrite Ht; auto).
  assert (Hpr : forall k, keeps s (prune s1 l k) /\ forall q, f_tree (prune s1 l k) q = f_tree s q \/ (at_or_below l q /\ f_tree (prune s1 l k) q = None)).
  { intros k. split; [eapply keeps_trans; [apply Q|]; unfold keeps, clean; cbn; splits; auto|]. intros q. cbn. rewrite Ht.
    destruct (loc_pre l q && negb (k q)) eqn:Ek; [|auto]. right. split; [|reflexivity]. apply andb_true_iff in Ek. apply loc_pre_spec. tauto. }
  assert (Hpp : forall k, (forall a b, at_or_below l a -> at_or_below a b -> k b = true -> k a = true) -> parcl s -> parcl (prune s1 l k)).
  { intros k Hk Hpa x Hxx q Hqx Hqn. cbn in *. destruct (loc_pre l x && negb (k x)) eqn:Ex; [congruence|]. rewrite Ht in *.
    destruct (Hpa x Hxx q Hqx Hqn) as [m Hm]. destruct (loc_pre l q && negb (k q)) eqn:Eq; [|eauto].
    exfalso. apply andb_true_iff in Eq. destruct Eq as [E1 E2]. apply loc_pre_spec in E1.
    apply andb_false_iff in Ex. destruct Ex as [Ex|Ex].
    - rewrite (proj2 (loc_pre_spec l x)) in Ex; [discriminate|]. eapply below_trans; eassumption.
    - apply negb_false_iff in Ex. rewrite (Hk q x E1 Hqx Ex) in E2. discriminate. }
  destruct (resolve_path_passable s false l Hn Hp ltac:(discriminate)) as [Er|[Er (q0 & Q1 & Q2 & Q3)]]; rewrite Er in E.
  - destruct fl as [f|].
    + injection E as <- <-. destruct (Hpr (left_over (fl_keep f) l)) as [K1 K2]. split; [exact K1|]. split; [exact K2|]. split; [discriminate|]. split.
      * intros HH. discriminate (Hc' HH).
      * apply Hpp. apply left_over_closed.
    + assert (Hb : bytes_eqb (List.last (pcomps (render l)) []) dotdot || match l with [] => true | _ => false end = false).
      { rewrite pcomps_render by exact Hn. destruct l as [|x l0] eqn:El; [congruence|]. rewrite orb_false_r. apply bytes_eqb_neq.
        destruct (exists_last (l := x :: l0) ltac:(discriminate)) as (a & b & Eab). rewrite Eab in *. rewrite last_last.
        apply Forall_app in Hn. destruct Hn as [_ Hn]. inversion Hn as [|? ? (_ & _ & Hd) _]. exact Hd. }
      rewrite Hb in E. injection E as <- <-. destruct (Hpr (fun _ => false)) as [K1 K2]. split; [exact K1|]. split; [exact K2|]. split; [|split; [reflexivity|]].
      * intros _ _ q Hlq. cbn. rewrite (proj2 (loc_pre_spec l q) Hlq). reflexivity.
      * apply Hpp. discriminate.
  - assert (s' = s1) by (destruct fl; congruence). subst s1. splits.
    + apply Q.
    + intros q. left. rewrite Ht. reflexivity.
    + intros _ Hpa q Hlq. rewrite Ht. destruct (f_tree s q) eqn:Eq; [|reflexivity]. exfalso.
      assert (Hqq : f_tree s q <> None) by congruence.
      destruct (Hpa q Hqq q0) as [m Hm]; [eapply below_trans; eassumption| |congruence].
      intros ->. apply Q2. apply below_antisym; assumption.
    + intros HH. rewrite (Hc' HH) in E. congruence.
    + exact Hpc1.
Qed.

Lemma os_symlink_lex s l t s' r : rooted s -> Forall normal l -> nolink s l -> os_symlink s t (render l) = (s', r) ->
  keeps s s' /\ ((f_tree s' = f_tree s /\ r <> None) \/ (r = None /\ alldirs s l /\ f_tree s l = None /\ set_at s s' l (Some (FLink t)))) /\
  (clean s -> alldirs s l -> f_tree s l = None -> r = None).
Proof.
  intros Hro Hn Hl E. unfold os_symlink in E. destruct (tick (logged s (render l))) as [s1 fl] eqn:Ht. apply eqfs_tick in Ht. destruct Ht as [Hq Hc].
  pose proof (eqfs_trans _ _ _ (eqfs_log s (render l)) Hq) as Q. clear Hq.
  assert (Hc' : clean s -> fl = None) by (intros H; apply Hc; exact H). clear Hc.
  destruct fl as [f|].
  { injection E as <- <-. splits; [apply Q|left; split; [apply Q|discriminate]|]. intros HH. discriminate (Hc' HH). }
  assert (Hx : resolve_path s1 false (render l) = resolve_path s false (render l)) by (apply resolve_path_ext; apply Q).
  rewrite Hx in E. pose proof (proj2 Q) as Ht. rewrite ?Ht in E.
  destruct (resolve_path s false (render l)) as [l'|e| |] eqn:Er.
  2-4: injection E as <- <-; splits; [apply Q|left; split; [apply Q|discriminate]|];
       intros _ Ha; rewrite (resolve_path_dirs s false l Hn Ha) in Er by discriminate; discriminate.
  apply through in Er; auto; [|discriminate]. destruct Er as [-> Ha].
  destruct (f_tree s l) as [n|] eqn:El; injection E as <- <-.
  - splits; [apply Q|left; split; [apply Q|discriminate]|]. discriminate.
  - splits; auto.
    + eapply keeps_trans; [apply Q|]; unfold keeps, clean; cbn; splits; auto.
    + right. splits; auto. split; cbn; [rewrite loc_eqb_refl; reflexivity|].
      intros q Hqq. rewrite (proj2 (loc_eqb_neq q l) Hqq), Ht. reflexivity.
Qed.

(** OpenFile at a location that is not a symlink *)
Lemma os_open_lex s l mode s' r : rooted s -> Forall normal l -> nolink_at s l -> os_open_create s (render l) mode = (s', r) ->
  (f_wd s' = f_wd s /\ f_umask s' = f_umask s /\ (clean s -> clean s')) /\
  ((exists h, r = Ok h) \/ exists e, r = Err e) /\
  (forall e, r = Err e -> eqfs s s') /\
  (forall h, r = Ok h -> alldirs s l /\ h = f_nexth s /\ f_nexth s' = S h /\ (forall j, j <> h -> f_hand s' j = f_hand s j) /\
     exists i, f_hand s' h = Some (MkH i 0) /\ f_tree s' l = Some (FFile i) /\
       (forall q, q <> l -> f_tree s' q = f_tree s q) /\ (forall j, j <> i -> f_ino s' j = f_ino s j) /\
       ((f_tree s l = Some (FFile i) /\ f_ino s' i = f_ino s i /\ f_next s' = f_next s) \/
        (f_tree s l = None /\ i = f_next s /\ f_ino s' i = MkIno [] [] (Z.land (perm mode) (Z.lnot (f_umask s))) /\ f_next s' = S i))) /\
  (clean s -> alldirs s l -> (forall m, f_tree s l <> Some (FDir m)) -> exists h, r = Ok h).
Proof.
  intros Hro Hn Hl E. unfold os_open_create in E. destruct (tick (logged s (render l))) as [s1 fl] eqn:Ht. apply eqfs_tick in Ht. destruct Ht as [Hq Hc].
  pose proof (eqfs_trans _ _ _ (eqfs_log s (render l)) Hq) as Q. clear Hq.
  assert (Hc' : clean s -> fl = None) by (intros H; apply Hc; exact H). clear Hc.
  assert (Q' := Q). destruct Q' as [(K1 & K2 & K3 & K4 & K5 & K6 & K7) K8].
  destruct fl as [f|].
  { injection E as <- <-. splits; eauto; try discriminate. intros HH. discriminate (Hc' HH). }
  assert (Hx : resolve_path s1 true (render l) = resolve_path s true (render l)) by (apply resolve_path_ext; apply Q).
  rewrite Hx in E. cbv zeta in E. rewrite ?K8 in E.
  destruct (resolve_path s true (render l)) as [l'|e| |] eqn:Er.
  2-4: injection E as <- <-; splits; eauto; try discriminate;
       intros _ Ha; rewrite (resolve_path_dirs s true l Hn Ha) in Er by (intros _ t; apply Hl; apply below_refl); discriminate.
  apply through in Er; auto; [|apply nolink_at_nolink; exact Hl|intros _ t; apply Hl; apply below_refl]. destruct Er as [-> Ha].
  destruct (f_tree s l) as [[m|t|i]|] eqn:El.
  - injection E as <- <-. splits; eauto; try discriminate. intros _ _ HH. exfalso. eapply HH; eauto.
  - exfalso. apply (Hl l t (below_refl _) El).
  - injection E as <- <-. splits; eauto; try discriminate.
    intros h Hh. injection Hh as <-. cbn. splits; auto; try congruence.
    + intros j Hj. rewrite <- K3. rewrite (proj2 (Nat.eqb_neq _ _) Hj). reflexivity.
    + exists i. rewrite Nat.eqb_refl, K8. splits; auto; try congruence. left. rewrite K1, K2. auto.
  - injection E as <- <-. splits; cbn; eauto; try discriminate.
    intros h Hh. injection Hh as <-. splits; auto; try congruence.
    + intros j Hj. rewrite <- K3. rewrite (proj2 (Nat.eqb_neq _ _) Hj). reflexivity.
    + exists (f_next s1). rewrite Nat.eqb_refl, loc_eqb_refl. splits; auto.
      * intros q Hqq. rewrite (proj2 (loc_eqb_neq q l) Hqq), K8. reflexivity.
      * intros j Hj. rewrite <- K1. rewrite (proj2 (Nat.eqb_neq _ _) Hj). reflexivity.
      * right. rewrite Nat.eqb_refl, K6. auto.
Qed.
