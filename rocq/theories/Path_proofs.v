(** Path_proofs.v -- proofs that Path.v meets PathSpec.v *)
From Verif Require Import Base Base_proofs Path PathSpec.

(** ** Components *)
Definition name_ok (c : bytes) : Prop := c <> [] /\ ~ In slash c.
Definition normal (c : bytes) : Prop := name_ok c /\ c <> dot /\ c <> dotdot.

Lemma split_slash_nonnil s : split_slash s <> [].
Proof. destruct s as [|c s]; simpl; [discriminate|]. destruct (beqb c slash); [discriminate|]. destruct (split_slash s); discriminate. Qed.

Lemma split_slash_no_slash s : Forall (fun c => ~ In slash c) (split_slash s).
Proof.
  induction s as [|c s IH]; simpl; [repeat constructor; simpl; tauto|].
  destruct (beqb c slash) eqn:E.
  - constructor; [simpl; tauto | exact IH].
  - destruct (split_slash s) as [|w ws] eqn:Es; inversion IH; subst; repeat constructor; auto; simpl;
      intros [H|H]; subst; try tauto; rewrite (proj2 (beqb_eq slash slash) eq_refl) in E; discriminate.
Qed.

Lemma split_slash_single w : ~ In slash w -> split_slash w = [w].
Proof.
  induction w as [|c w IH]; simpl; intros H; [reflexivity|].
  destruct (beqb c slash) eqn:E; [apply beqb_eq in E; subst; tauto|].
  rewrite IH by tauto. reflexivity.
Qed.

Lemma split_slash_app a b : ~ In slash a -> split_slash (a ++ slash :: b) = a :: split_slash b.
Proof.
  induction a as [|c a IH]; simpl; intros H; [reflexivity|].
  destruct (beqb c slash) eqn:E; [apply beqb_eq in E; subst; tauto|].
  rewrite IH by tauto. reflexivity.
Qed.

Lemma split_slash_app_gen a b : split_slash (a ++ slash :: b) = split_slash a ++ split_slash b.
Proof.
  induction a as [|c a IH]; simpl; [reflexivity|].
  destruct (beqb c slash) eqn:E; [simpl; now rewrite IH|].
  rewrite IH. destruct (split_slash a) eqn:Ea; [|reflexivity].
  exfalso. exact (split_slash_nonnil a Ea).
Qed.

Lemma split_join cs : cs <> [] -> Forall (fun c => ~ In slash c) cs -> split_slash (join_slash cs) = cs.
Proof.
  induction cs as [|w ws IH]; intros Hn Hf; [congruence|].
  inversion Hf as [|? ? Hw Hws]; subst.
  destruct ws as [|w' ws'].
  - simpl. apply split_slash_single. exact Hw.
  - change (join_slash (w :: w' :: ws')) with (w ++ slash :: join_slash (w' :: ws')).
    rewrite split_slash_app by exact Hw. rewrite IH; [reflexivity | discriminate | exact Hws].
Qed.

Lemma join_split s : join_slash (split_slash s) = s.
Proof.
  induction s as [|c s IH]; simpl; [reflexivity|].
  destruct (beqb c slash) eqn:E.
  - apply beqb_eq in E; subst.
    destruct (split_slash s) as [|w ws] eqn:Es; [exfalso; exact (split_slash_nonnil s Es)|].
    change (slash :: join_slash (w :: ws) = slash :: s). now rewrite IH.
  - destruct (split_slash s) as [|w ws] eqn:Es; [exfalso; exact (split_slash_nonnil s Es)|].
    destruct ws; simpl in *; congruence.
Qed.

(** ** walk *)
Lemma walk_app cur a b : walk cur (a ++ b) = walk (walk cur a) b.
Proof.
  revert cur; induction a as [|c a IH]; intros cur; simpl; [reflexivity|].
  destruct (bytes_eqb c [] || bytes_eqb c (s2b ".")); [apply IH|].
  destruct (bytes_eqb c (s2b "..")); apply IH.
Qed.

Lemma Forall_removelast {A} (P : A -> Prop) l : Forall P l -> Forall P (removelast l).
Proof.
  induction l as [|x l IH]; simpl; intros H; [constructor|].
  inversion H; subst. destruct l; [constructor|]. constructor; auto.
Qed.

Lemma walk_normal cur cs :
  Forall normal cur -> Forall (fun c => ~ In slash c) cs -> Forall normal (walk cur cs).
Proof.
  revert cur; induction cs as [|c cs IH]; intros cur Hc Hf; simpl; [exact Hc|].
  inversion Hf as [|? ? H1 H2]; subst.
  destruct (bytes_eqb c [] || bytes_eqb c (s2b ".")) eqn:E1; [apply IH; assumption|].
  destruct (bytes_eqb c (s2b "..")) eqn:E2; apply IH; try assumption.
  - apply Forall_removelast. exact Hc.
  - apply Forall_app. split; [exact Hc|]. constructor; [|constructor].
    apply orb_false_iff in E1. destruct E1 as [E0 E1].
    apply bytes_eqb_neq in E0, E1, E2. repeat split; assumption.
Qed.

Lemma walk_normals cur cs : Forall normal cs -> walk cur cs = cur ++ cs.
Proof.
  revert cur; induction cs as [|c cs IH]; intros cur H; simpl; [now rewrite app_nil_r|].
  inversion H as [|? ? [[H1 H1'] [H2 H3]] H4]; subst.
  rewrite (proj2 (bytes_eqb_neq c []) H1), (proj2 (bytes_eqb_neq c (s2b ".")) H2),
    (proj2 (bytes_eqb_neq c (s2b "..")) H3). simpl.
  rewrite IH by exact H4. now rewrite <- app_assoc.
Qed.

(** ** clean (rooted) is walk from the root *)
Lemma removelast_rev {A} (x : A) st : removelast (rev (x :: st)) = rev st.
Proof. simpl. now rewrite removelast_last. Qed.

Lemma clean_fold_walk cs : forall st,
  Forall normal st ->
  Forall (fun c => ~ In slash c) cs ->
  rev (fold_left (clean_push true) cs st) = walk (rev st) cs.
Proof.
  induction cs as [|c cs IH]; intros st Hst Hf; simpl; [reflexivity|].
  inversion Hf as [|? ? H1 H2]; subst.
  unfold clean_push at 2. fold dot dotdot in *.
  change (s2b ".") with dot. change (s2b "..") with dotdot.
  destruct (bytes_eqb c [] || bytes_eqb c dot) eqn:E1; [apply IH; assumption|].
  destruct (bytes_eqb c dotdot) eqn:E2.
  - destruct st as [|t st].
    + rewrite IH by (try constructor; assumption). reflexivity.
    + inversion Hst as [|? ? [Ht1 [Ht2 Ht3]] Hst']; subst.
      rewrite (proj2 (bytes_eqb_neq t dotdot) Ht3).
      rewrite IH by assumption. rewrite removelast_rev. reflexivity.
  - rewrite IH; [simpl; reflexivity | | assumption].
    constructor; [|assumption]. apply orb_false_iff in E1. destruct E1 as [E0 E1].
    apply bytes_eqb_neq in E0, E1, E2. repeat split; assumption.
Qed.

Lemma clean_comps_rooted p : clean_comps true (split_slash p) = walk [] (split_slash p).
Proof.
  unfold clean_comps. rewrite clean_fold_walk; [reflexivity | constructor | apply split_slash_no_slash].
Qed.

Lemma clean_abs p : is_abs p = true -> clean p = render (walk [] (split_slash p)).
Proof. intros H. unfold clean. rewrite H, clean_comps_rooted. reflexivity. Qed.

Lemma is_abs_render l : is_abs (render l) = true.
Proof. reflexivity. Qed.

Lemma walk_nil_cons cur cs : walk cur ([] :: cs) = walk cur cs.
Proof. reflexivity. Qed.

Lemma split_render l : Forall normal l -> exists z, split_slash (render l) = [] :: z /\ forall cur, walk cur z = cur ++ l.
Proof.
  intros H. unfold render. simpl. destruct l as [|w ws].
  - exists [[]]. split; [reflexivity|]. intros; simpl. now rewrite app_nil_r.
  - exists (w :: ws). rewrite split_join.
    + split; [reflexivity|]. intros. apply walk_normals. exact H.
    + discriminate.
    + eapply Forall_impl; [|exact H]. intros a [[_ Ha] _]. exact Ha.
Qed.

Lemma clean_render l : Forall normal l -> clean (render l) = render l.
Proof.
  intros H. rewrite clean_abs by reflexivity.
  destruct (split_render l H) as [z [-> Hz]]. rewrite walk_nil_cons, Hz. reflexivity.
Qed.

Lemma path_join_render b p : Forall normal b -> path_join (render b) p = render (walk b (split_slash p)).
Proof.
  intros H. unfold path_join.
  destruct (render b) eqn:E; [discriminate|]. rewrite <- E.
  rewrite clean_abs by (rewrite E; simpl; unfold render in E; injection E as <-; reflexivity).
  rewrite split_slash_app_gen.
  destruct (split_render b H) as [z [-> Hz]]. simpl. rewrite walk_app, Hz. reflexivity.
Qed.

Lemma path_abs_render wd b : Forall normal b -> path_abs wd (render b) = render b.
Proof. intros H. unfold path_abs. rewrite is_abs_render. apply clean_render. exact H. Qed.

Lemma locate_normal cur p : Forall normal cur -> Forall normal (locate cur p).
Proof.
  intros H. unfold locate. apply walk_normal; [|apply split_slash_no_slash].
  destruct (is_abs p); [constructor|exact H].
Qed.

Lemma base_loc_normal wd dir : Forall normal (base_loc wd dir).
Proof. apply locate_normal, locate_normal. constructor. Qed.

Lemma path_abs_spec wd dir : is_abs wd = true -> path_abs wd dir = render (base_loc wd dir).
Proof.
  intros Hwd. unfold path_abs, base_loc, locate. rewrite Hwd.
  destruct (is_abs dir) eqn:E; [apply clean_abs; exact E|].
  unfold path_join. destruct wd as [|c wd]; [discriminate|].
  rewrite clean_abs by exact Hwd. rewrite split_slash_app_gen, walk_app. reflexivity.
Qed.

(** ** within_base *)
Lemma at_or_belowb_spec b : forall t, at_or_belowb b t = true <-> at_or_below b t.
Proof.
  unfold at_or_below.
  induction b as [|x b IH]; intros t; simpl.
  - split; [intros _; exists t; reflexivity | reflexivity].
  - destruct t as [|y t].
    + split; [discriminate | intros [r H]; discriminate].
    + rewrite andb_true_iff, bytes_eqb_eq, IH. split.
      * intros [-> [r ->]]. exists r. reflexivity.
      * intros [r H]. injection H as -> ->. split; [reflexivity | exists r; reflexivity].
Qed.

Lemma has_prefix_spec pre : forall s, has_prefix pre s = true <-> exists r, s = pre ++ r.
Proof.
  induction pre as [|a pre IH]; intros s; simpl.
  - split; [intros _; exists s; reflexivity | reflexivity].
  - destruct s as [|c s].
    + split; [discriminate | intros [r H]; discriminate].
    + rewrite andb_true_iff, beqb_eq, IH. split.
      * intros [-> [r ->]]. exists r. reflexivity.
      * intros [r H]. injection H as -> ->. split; [reflexivity | exists r; reflexivity].
Qed.

Lemma join_slash_app a b : a <> [] -> b <> [] -> join_slash (a ++ b) = join_slash a ++ slash :: join_slash b.
Proof.
  induction a as [|w ws IH]; intros Ha Hb; [congruence|].
  destruct ws as [|w' ws'].
  - simpl. destruct b; [congruence|reflexivity].
  - specialize (IH ltac:(discriminate) Hb).
    change (w ++ slash :: join_slash ((w' :: ws') ++ b) = (w ++ slash :: join_slash (w' :: ws')) ++ slash :: join_slash b).
    rewrite IH, <- app_assoc. reflexivity.
Qed.

Lemma join_slash_inj a b :
  Forall name_ok a -> Forall name_ok b -> join_slash a = join_slash b -> a = b.
Proof.
  intros Ha Hb H.
  assert (Hf : forall l, Forall name_ok l -> Forall (fun c => ~ In slash c) l).
  { intros l Hl. eapply Forall_impl; [|exact Hl]. intros c [_ Hc]; exact Hc. }
  assert (Hnil : forall l, Forall name_ok l -> join_slash l = [] -> l = []).
  { intros [|w ws] Hl Hj; [reflexivity|]. exfalso. inversion Hl as [|? ? [Hw _] _]; subst.
    destruct ws; simpl in Hj; [congruence|]. apply app_eq_nil in Hj. tauto. }
  destruct a as [|x a].
  - simpl in H. symmetry in H. symmetry. apply Hnil; assumption.
  - destruct b as [|y b]; [apply (Hnil (x :: a)); assumption|].
    rewrite <- (split_join (x :: a)), <- (split_join (y :: b)), H by (try discriminate; apply Hf; assumption).
    reflexivity.
Qed.

Lemma normal_name_ok l : Forall normal l -> Forall name_ok l.
Proof. apply Forall_impl. intros c [H _]; exact H. Qed.

Lemma render_inj a b : Forall normal a -> Forall normal b -> render a = render b -> a = b.
Proof.
  intros Ha Hb H. unfold render in H. injection H as H.
  apply join_slash_inj; try apply normal_name_ok; assumption.
Qed.

Lemma split_prefix_comps b : forall t rest,
  Forall name_ok b -> Forall name_ok t -> b <> [] ->
  join_slash t = join_slash b ++ slash :: rest -> exists r, t = b ++ r /\ r = split_slash rest.
Proof.
  intros t rest Hb Ht Hbn Hj.
  assert (Hf : forall l, Forall name_ok l -> Forall (fun c => ~ In slash c) l).
  { intros l Hl. eapply Forall_impl; [|exact Hl]. intros c [_ Hc]; exact Hc. }
  destruct t as [|w ws].
  - simpl in Hj. symmetry in Hj. apply app_eq_nil in Hj. destruct Hj; discriminate.
  - apply (f_equal split_slash) in Hj.
    rewrite split_join in Hj by (try discriminate; apply Hf; assumption).
    rewrite split_slash_app_gen, split_join in Hj by (try assumption; apply Hf; assumption).
    exists (split_slash rest). split; [exact Hj | reflexivity].
Qed.

Lemma within_base_spec b t :
  b <> [] -> Forall normal b -> Forall normal t ->
  within_base (render b) (render t) = at_or_belowb b t.
Proof.
  intros Hbn Hb Ht. unfold within_base.
  apply eq_true_iff_eq. rewrite orb_true_iff, has_prefix_spec, bytes_eqb_eq, at_or_belowb_spec.
  split.
  - intros [[r Hr] | H].
    + unfold render in Hr. rewrite <- app_assoc in Hr. simpl in Hr. injection Hr as Hr.
      destruct (split_prefix_comps b t r) as [r' [-> _]]; try apply normal_name_ok; try assumption.
      exists r'. reflexivity.
    + apply render_inj in H; try assumption. subst. exists []. now rewrite app_nil_r.
  - intros [r ->]. destruct r as [|x r].
    + right. now rewrite app_nil_r.
    + left. exists (join_slash (x :: r)). unfold render. simpl. f_equal.
      rewrite join_slash_app by (try discriminate; assumption). now rewrite <- app_assoc.
Qed.

(** ** dest_path *)
Lemma dest_path_spec wd dir cp :
  is_abs wd = true -> base_loc wd dir <> [] ->
  dest_path wd dir cp =
    let b := base_loc wd dir in
    let t := walk b (split_slash cp) in
    if at_or_belowb b t then Ok (render t) else Err ETraversal.
Proof.
  intros Hwd Hb. unfold dest_path, from_slash. rewrite path_abs_spec by exact Hwd.
  pose proof (base_loc_normal wd dir) as Hbn.
  rewrite path_join_render by exact Hbn.
  assert (Ht : Forall normal (walk (base_loc wd dir) (split_slash cp))).
  { apply walk_normal; [exact Hbn | apply split_slash_no_slash]. }
  rewrite path_abs_render by exact Ht.
  rewrite within_base_spec by assumption. cbv zeta.
  destruct (at_or_belowb _ _); reflexivity.
Qed.

(** Directory "/": only the root itself is accepted. *)
Lemma dest_path_root wd dir cp :
  is_abs wd = true -> base_loc wd dir = [] ->
  dest_path wd dir cp =
    match walk [] (split_slash cp) with [] => Ok [slash] | _ => Err ETraversal end.
Proof.
  intros Hwd Hb. unfold dest_path, from_slash. rewrite path_abs_spec by exact Hwd. rewrite Hb.
  rewrite path_join_render by constructor.
  assert (Ht : Forall normal (walk [] (split_slash cp))).
  { apply walk_normal; [constructor | apply split_slash_no_slash]. }
  rewrite path_abs_render by exact Ht.
  destruct (walk [] (split_slash cp)) as [|x l] eqn:E; [reflexivity|].
  assert (within_base (render []) (render (x :: l)) = false) as ->; [|reflexivity].
  unfold within_base. apply orb_false_iff. inversion Ht as [|? ? [[Hx1 Hx2] _] _]; subst.
  destruct x as [|c x]; [congruence|].
  split.
  - apply not_true_is_false. rewrite has_prefix_spec. intros [r Hr]. unfold render in Hr.
    assert (c = slash) as -> by (destruct l; simpl in Hr; injection Hr; auto).
    apply Hx2. left; reflexivity.
  - apply bytes_eqb_neq. unfold render. destruct l; simpl; discriminate.
Qed.

(** ** Dir of an absolute location *)
Lemma upto_last_slash_app a : forall w, ~ In slash w -> upto_last_slash (a ++ slash :: w) = a ++ [slash].
Proof.
  assert (Hnone : forall w, ~ In slash w -> upto_last_slash w = []).
  { induction w as [|c w IH]; simpl; intros H; [reflexivity|]. rewrite IH by tauto.
    destruct (beqb c slash) eqn:E; [apply beqb_eq in E; subst; tauto | reflexivity]. }
  induction a as [|c a IH]; intros w Hw; simpl.
  - rewrite Hnone by exact Hw. reflexivity.
  - rewrite IH by exact Hw. destruct (a ++ [slash]) eqn:E; [destruct a; discriminate | reflexivity].
Qed.

Lemma render_snoc d w : exists a, render (d ++ [w]) = a ++ slash :: w /\ (a = render d \/ (d = [] /\ a = [])).
Proof.
  destruct d as [|x d].
  - exists []. split; [reflexivity | right; auto].
  - exists (render (x :: d)). split; [|left; reflexivity].
    unfold render. rewrite join_slash_app by discriminate. reflexivity.
Qed.

Lemma split_slash_snoc a : split_slash (a ++ [slash]) = split_slash a ++ [[]].
Proof. change [slash] with (slash :: @nil byte). rewrite split_slash_app_gen. reflexivity. Qed.

Lemma path_dir_render d : Forall normal d -> path_dir (render d) = render (removelast d).
Proof.
  intros H. destruct d as [|x0 d0] eqn:Ed; [reflexivity|].
  destruct (@exists_last _ (x0 :: d0)) as [d' [w Hw]]; [discriminate|].
  rewrite Hw in *. rewrite removelast_last.
  apply Forall_app in H. destruct H as [Hd Hww]. inversion Hww as [|? ? [[_ Hw'] _] _]; subst.
  destruct (render_snoc d' w) as [a [-> Ha]].
  unfold path_dir. rewrite upto_last_slash_app by exact Hw'.
  destruct Ha as [-> | [-> ->]]; [|reflexivity].
  rewrite clean_abs by reflexivity.
  rewrite split_slash_snoc, walk_app.
  destruct (split_render d' Hd) as [z [Hs Hz]].
  assert (Hw0 : walk [] (split_slash (render d')) = d') by (rewrite Hs, walk_nil_cons, Hz; reflexivity).
  rewrite Hw0. reflexivity.
Qed.

Lemma check_link_spec wd dir d l :
  is_abs wd = true -> base_loc wd dir <> [] -> Forall normal d ->
  check_link wd dir (render d) l =
    if is_abs l then Err ETraversal
    else if at_or_belowb (base_loc wd dir) (walk (removelast d) (split_slash l)) then Ok tt else Err ETraversal.
Proof.
  intros Hwd Hb Hd. unfold check_link. rewrite path_abs_spec by exact Hwd.
  destruct (is_abs l) eqn:El; [reflexivity|].
  rewrite path_dir_render by exact Hd.
  assert (Hd' : Forall normal (removelast d)) by (apply Forall_removelast; exact Hd).
  rewrite path_join_render by exact Hd'.
  assert (Ht : Forall normal (walk (removelast d) (split_slash l))).
  { apply walk_normal; [exact Hd' | apply split_slash_no_slash]. }
  rewrite path_abs_render by exact Ht.
  rewrite within_base_spec by (try assumption; apply base_loc_normal).
  destruct (at_or_belowb _ _); reflexivity.
Qed.

(** ** IsLocal implies staying inside any base *)

(** relative clean: stack is names on top of ".."s *)
Definition rel_stack (st : list bytes) : Prop :=
  exists n k, st = n ++ repeat dotdot k /\ Forall normal n.

Lemma dotdot_not_normal : ~ normal dotdot.
Proof. intros [_ [_ H]]. congruence. Qed.

Lemma walk_repeat_dotdot cur k : walk cur (repeat dotdot k) = Nat.iter k (@removelast _) cur.
Proof.
  revert cur; induction k as [|k IH]; intros cur; [reflexivity|].
  simpl. rewrite IH. clear IH. revert cur; induction k as [|k IH]; intros cur; [reflexivity|].
  simpl. now rewrite IH.
Qed.

Lemma rev_repeat {A} (x : A) k : rev (repeat x k) = repeat x k.
Proof.
  induction k as [|k IH]; [reflexivity|]. simpl. rewrite IH. symmetry. apply repeat_cons.
Qed.

Lemma repeat_S_app {A} (x : A) k : x :: repeat x k = repeat x (S k).
Proof. reflexivity. Qed.

Lemma rel_push st c : rel_stack st -> ~ In slash c -> rel_stack (clean_push false st c) /\
  forall cur, walk cur (rev (clean_push false st c)) = walk cur (rev st ++ [c]).
Proof.
  intros [n [k [-> Hn]]] Hc. unfold clean_push.
  destruct (bytes_eqb c [] || bytes_eqb c dot) eqn:E1.
  - split; [exists n, k; auto|]. intros cur. rewrite walk_app.
    simpl. change (s2b ".") with dot. rewrite E1. reflexivity.
  - destruct (bytes_eqb c dotdot) eqn:E2.
    + apply bytes_eqb_eq in E2; subst c. destruct n as [|x n].
      * simpl. destruct k as [|k].
        -- simpl. split; [exists [], 1%nat; split; [reflexivity|constructor] | reflexivity].
        -- simpl. change (bytes_eqb dotdot dotdot) with true. cbv iota.
           split; [exists [], (S (S k)); split; [reflexivity|constructor]|].
           intros cur. simpl. reflexivity.
      * simpl. inversion Hn as [|? ? Hx Hn']; subst.
        destruct (bytes_eqb x dotdot) eqn:Ex; [apply bytes_eqb_eq in Ex; subst; exfalso; exact (dotdot_not_normal Hx)|].
        split; [exists n, k; auto|]. intros cur. rewrite <- app_assoc, (walk_app cur _ ([x] ++ _)).
        rewrite walk_app, (walk_normals _ [x]) by (constructor; [exact Hx | constructor]).
        simpl. rewrite removelast_last. reflexivity.
    + split; [|reflexivity].
      exists (c :: n), k. split; [reflexivity|]. constructor; [|exact Hn].
      apply orb_false_iff in E1. destruct E1 as [E0 E1]. apply bytes_eqb_neq in E0, E1, E2.
      repeat split; assumption.
Qed.

Lemma rel_fold cs : forall st, rel_stack st -> Forall (fun c => ~ In slash c) cs ->
  rel_stack (fold_left (clean_push false) cs st) /\
  forall cur, walk cur (rev (fold_left (clean_push false) cs st)) = walk cur (rev st ++ cs).
Proof.
  induction cs as [|c cs IH]; intros st Hst Hf; simpl; [split; [exact Hst|]; intros; now rewrite app_nil_r|].
  inversion Hf as [|? ? H1 H2]; subst.
  destruct (rel_push st c Hst H1) as [Hp Hw].
  destruct (IH _ Hp H2) as [Hr Hw2]. split; [exact Hr|].
  intros cur. rewrite Hw2, walk_app, Hw, <- walk_app, <- app_assoc. reflexivity.
Qed.

Lemma clean_comps_rel p :
  exists n k, clean_comps false (split_slash p) = repeat dotdot k ++ n /\ Forall normal n /\
  forall cur, walk cur (split_slash p) = walk cur (repeat dotdot k ++ n).
Proof.
  destruct (rel_fold (split_slash p) []) as [[n [k [E Hn]]] Hw].
  { exists [], 0%nat. split; [reflexivity|constructor]. }
  { apply split_slash_no_slash. }
  unfold clean_comps. rewrite E in *.
  exists (rev n), k. rewrite rev_app_distr, rev_repeat in *. split; [reflexivity|].
  split; [apply Forall_rev; exact Hn|]. intros cur. rewrite Hw. reflexivity.
Qed.

Lemma no_dots_walk cs : forall b, existsb (fun c => bytes_eqb c dot || bytes_eqb c dotdot) cs = false ->
  exists r, walk b cs = b ++ r.
Proof.
  induction cs as [|c cs IH]; intros b H; simpl in *; [exists []; now rewrite app_nil_r|].
  apply orb_false_iff in H. destruct H as [Hc Hcs]. apply orb_false_iff in Hc. destruct Hc as [Hd Hdd].
  change (s2b ".") with dot. change (s2b "..") with dotdot. rewrite Hd, Hdd.
  destruct (bytes_eqb c []); simpl.
  - apply IH; assumption.
  - destruct (IH (b ++ [c]) Hcs) as [r ->]. exists ([c] ++ r). now rewrite <- app_assoc.
Qed.

Lemma is_local_inside p b : is_local p = true -> at_or_below b (walk b (split_slash p)).
Proof.
  unfold is_local. destruct (is_abs p || bytes_eqb p []) eqn:E0; [discriminate|].
  apply orb_false_iff in E0. destruct E0 as [Eabs Enil].
  destruct (has_dots p) eqn:Ed.
  - intros H. apply negb_true_iff, orb_false_iff in H. destruct H as [H1 H2].
    unfold clean in H1, H2. rewrite Eabs in H1, H2.
    destruct (clean_comps_rel p) as [n [k [E [Hn Hw]]]]. rewrite E in H1, H2.
    destruct k as [|k].
    + rewrite Hw. simpl. rewrite walk_normals by exact Hn. exists n. reflexivity.
    + exfalso. simpl in H1, H2. destruct (repeat dotdot k ++ n) as [|x l] eqn:Er.
      * simpl in H1. discriminate.
      * change (join_slash (dotdot :: x :: l)) with (dotdot ++ slash :: join_slash (x :: l)) in H2.
        simpl in H2. discriminate.
  - intros _. unfold has_dots in Ed. destruct (no_dots_walk _ b Ed) as [r Hr]. exists r. exact Hr.
Qed.

(** If [p] is relative and resolves below *every* base directory then IsLocal accepts it. *)
Lemma fresh_name (x : bytes) : exists y, normal y /\ y <> x.
Proof.
  destruct (bytes_eq_dec x (s2b "a")) as [->|H].
  - exists (s2b "b"). split; [|discriminate]. unfold s2b. repeat split; simpl; try discriminate.
    intros [H|[]]; discriminate.
  - exists (s2b "a"). split; [|congruence]. unfold s2b. repeat split; simpl; try discriminate.
    intros [H'|[]]; discriminate.
Qed.

Lemma iter_removelast_1 k (x : bytes) : Nat.iter (S k) (@removelast bytes) [x] = [].
Proof. induction k as [|k IH]; [reflexivity|]. simpl in *. rewrite IH. reflexivity. Qed.

Lemma not_local_escapes p : p <> [] -> is_abs p = false -> is_local p = false ->
  exists b, b <> [] /\ Forall normal b /\ ~ at_or_below b (walk b (split_slash p)).
Proof.
  unfold is_local. intros Hp Eabs H. rewrite Eabs in H.
  rewrite (proj2 (bytes_eqb_neq p []) Hp) in H. cbn [orb] in H.
  destruct (clean_comps_rel p) as [n [k [E [Hn Hw]]]].
  assert (Hk : (k <> 0)%nat \/ (exists r, p = dotdot \/ p = dotdot ++ slash :: r)).
  { destruct (has_dots p) eqn:Ed.
    - left. intros ->. apply negb_false_iff in H. unfold clean in H. rewrite Eabs, E in H.
      cbn [repeat app] in H. destruct n as [|x n]; [simpl in H; discriminate|].
      inversion Hn as [|? ? [[Hx0 Hx1] [Hx2 Hx3]] _]; subst.
      assert (Hs : split_slash (join_slash (x :: n)) = x :: n).
      { apply split_join; [discriminate|]. eapply Forall_impl; [|exact Hn]. intros a [[_ Ha] _]; exact Ha. }
      apply orb_true_iff in H. destruct H as [H|H].
      + apply bytes_eqb_eq in H. rewrite H in Hs. change (split_slash dotdot) with [dotdot] in Hs. injection Hs as Hs _. congruence.
      + apply has_prefix_spec in H. destruct H as [r H]. rewrite H in Hs.
        change (s2b "../" ++ r) with (dotdot ++ slash :: r) in Hs.
        rewrite split_slash_app in Hs by (unfold dotdot, s2b; simpl; intros [Hin|[Hin|[]]]; discriminate).
        injection Hs as Hs _. congruence.
    - right. apply negb_false_iff, orb_true_iff in H. destruct H as [H|H].
      + apply bytes_eqb_eq in H. exists []. left; exact H.
      + apply has_prefix_spec in H. destruct H as [r H]. exists r. right. rewrite H. reflexivity. }
  assert (Hk' : (k <> 0)%nat).
  { destruct Hk as [Hk|[r Hk]]; [exact Hk|]. intros ->. cbn [repeat app] in *.
    (* the first component is "..", so the stack has it at the bottom *)
    assert (Hd : In dotdot (split_slash p)).
    { destruct Hk as [-> | ->]; [left; reflexivity|].
      rewrite split_slash_app by (unfold dotdot, s2b; simpl; intros [Hin|[Hin|[]]]; discriminate). left; reflexivity. }
    assert (Hdots : has_dots p = true).
    { unfold has_dots. apply existsb_exists. exists dotdot. split; [exact Hd|reflexivity]. }
    clear Hk. rewrite Hdots in H. apply negb_false_iff in H. unfold clean in H. rewrite Eabs, E in H. cbn [repeat app] in H.
    destruct n as [|x n]; [simpl in H; discriminate|].
    inversion Hn as [|? ? [[Hx0 Hx1] [Hx2 Hx3]] _]; subst.
    assert (Hs : split_slash (join_slash (x :: n)) = x :: n).
    { apply split_join; [discriminate|]. eapply Forall_impl; [|exact Hn]. intros a [[_ Ha] _]; exact Ha. }
    apply orb_true_iff in H. destruct H as [H|H].
    - apply bytes_eqb_eq in H. rewrite H in Hs. change (split_slash dotdot) with [dotdot] in Hs. injection Hs as Hs _. congruence.
    - apply has_prefix_spec in H. destruct H as [r' H]. rewrite H in Hs.
      change (s2b "../" ++ r') with (dotdot ++ slash :: r') in Hs.
      rewrite split_slash_app in Hs by (unfold dotdot, s2b; simpl; intros [Hin|[Hin|[]]]; discriminate).
      injection Hs as Hs _. congruence. }
  destruct k as [|k]; [congruence|].
  destruct (fresh_name (hd [] n)) as [y [Hy Hyn]].
  exists [y]. split; [discriminate|]. split; [constructor; [exact Hy|constructor]|].
  rewrite Hw, walk_app, walk_repeat_dotdot, iter_removelast_1, walk_normals by exact Hn. simpl.
  intros [r Hr]. destruct n as [|x n]; [discriminate|]. injection Hr as <- _. apply Hyn. reflexivity.
Qed.
