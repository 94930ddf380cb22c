(** FS_proofs.v -- lemmas about the file system model. *)
From Verif Require Import Base Base_proofs Path PathSpec Path_proofs FS.

(** ** Locations *)
Lemma loc_eqb_eq a : forall b, loc_eqb a b = true <-> a = b.
Proof.
  induction a as [|x a IH]; destruct b as [|y b]; cbn [loc_eqb]; try (split; congruence).
  rewrite andb_true_iff, bytes_eqb_eq, IH. split; [intros [-> ->]; reflexivity | intros H; injection H; auto].
Qed.
Lemma loc_eqb_refl a : loc_eqb a a = true. Proof. apply loc_eqb_eq. reflexivity. Qed.
Lemma loc_eqb_neq a b : loc_eqb a b = false <-> a <> b.
Proof. rewrite <- not_true_iff_false, loc_eqb_eq. reflexivity. Qed.
Lemma loc_dec (a b : loc) : {a = b} + {a <> b}.
Proof. destruct (loc_eqb a b) eqn:E; [left; apply loc_eqb_eq; exact E | right; apply loc_eqb_neq; exact E]. Qed.
Lemma loc_pre_spec a : forall b, loc_pre a b = true <-> at_or_below a b.
Proof.
  induction a as [|x a IH]; intros b.
  - split; [intros _; exists b; reflexivity | reflexivity].
  - destruct b as [|y b]; cbn [loc_pre].
    + split; [discriminate|]. intros [r Hr]. discriminate.
    + rewrite andb_true_iff, bytes_eqb_eq, IH. split.
      * intros [-> [r ->]]. exists r. reflexivity.
      * intros [r Hr]. injection Hr as -> ->. split; [reflexivity|exists r; reflexivity].
Qed.

Lemma below_refl a : at_or_below a a. Proof. exists []. symmetry. apply app_nil_r. Qed.
Lemma below_trans a b c : at_or_below a b -> at_or_below b c -> at_or_below a c.
Proof. intros [r ->] [r' ->]. exists (r ++ r'). symmetry. apply app_assoc. Qed.
Lemma below_app a r : at_or_below a (a ++ r). Proof. exists r. reflexivity. Qed.
Lemma below_len a b : at_or_below a b -> (length a <= length b)%nat.
Proof. intros [r ->]. rewrite app_length. lia. Qed.
Lemma below_antisym a b : at_or_below a b -> at_or_below b a -> a = b.
Proof. intros [r ->] [r' H]. rewrite <- app_assoc in H. rewrite <- (app_nil_r a) in H at 1. apply app_inv_head in H.
  symmetry in H. apply app_eq_nil in H. destruct H as [-> _]. symmetry. apply app_nil_r. Qed.
Lemma below_total a b c : at_or_below a c -> at_or_below b c -> at_or_below a b \/ at_or_below b a.
Proof.
  revert b c. induction a as [|x a IH]; intros b c Ha Hb; [left; exists b; reflexivity|].
  destruct b as [|y b]; [right; exists (x :: a); reflexivity|].
  destruct Ha as [r ->], Hb as [r' Hr]. injection Hr as <- Hr.
  destruct (IH b (a ++ r)) as [[q ->]|[q ->]]; [exists r; reflexivity | exists r'; exact Hr | left; exists q; reflexivity | right; exists q; reflexivity].
Qed.
Lemma below_dec a b : {at_or_below a b} + {~ at_or_below a b}.
Proof. destruct (loc_pre a b) eqn:E; [left; apply loc_pre_spec; exact E | right; rewrite <- loc_pre_spec; congruence]. Qed.
Lemma below_snoc a b c : at_or_below a (b ++ [c]) -> at_or_below a b \/ a = b ++ [c].
Proof.
  intros [r Hr]. destruct r as [|x r] using rev_ind; [right; rewrite app_nil_r in Hr; congruence|].
  rewrite app_assoc in Hr. apply app_inj_tail in Hr. destruct Hr as [-> ->]. left. exists r. reflexivity.
Qed.
Lemma below_removelast a b : at_or_below a b -> a <> b -> at_or_below a (removelast b).
Proof.
  intros Hab Hne. destruct b as [|x b _] using rev_ind; [exact Hab|]. rewrite removelast_last.
  apply below_snoc in Hab. tauto.
Qed.
Lemma removelast_below l : at_or_below (removelast l) l.
Proof. destruct l as [|x l _] using rev_ind; [apply below_refl|]. rewrite removelast_last. exists [x]. reflexivity. Qed.

(** ** Path strings *)
Lemma pcomps_names l : Forall normal l -> filter (fun c => negb (bytes_eqb c [])) l = l.
Proof.
  induction 1 as [|c l [[H1 _] _] _ IH]; [reflexivity|]. cbn [filter].
  rewrite (proj2 (bytes_eqb_neq c []) H1). cbn [negb]. rewrite IH. reflexivity.
Qed.
Lemma pcomps_render l : Forall normal l -> pcomps (render l) = l.
Proof.
  intros H. unfold pcomps, render. change (slash :: join_slash l) with ([] ++ slash :: join_slash l).
  rewrite split_slash_app by (intros []). cbn [filter]. rewrite bytes_eqb_refl. cbn [negb].
  destruct l as [|c l]; [reflexivity|]. rewrite split_join; [|discriminate|].
  - apply pcomps_names. exact H.
  - eapply Forall_impl; [|exact H]. intros a [[_ Ha] _]. exact Ha.
Qed.
Lemma walk_pcomps t : forall cur, walk cur (pcomps t) = walk cur (split_slash t).
Proof.
  unfold pcomps. induction (split_slash t) as [|c cs IH]; intros cur; [reflexivity|].
  cbn [filter]. destruct (bytes_eqb c []) eqn:E; cbn [negb].
  - cbn [walk]. rewrite E. cbn [orb]. apply IH.
  - cbn [walk]. rewrite E. cbn [orb]. destruct (bytes_eqb c (s2b ".")); [apply IH|].
    destruct (bytes_eqb c (s2b "..")); apply IH.
Qed.
Lemma pcomps_nonempty t : Forall (fun c => c <> [] /\ ~ In slash c) (pcomps t).
Proof.
  unfold pcomps. pose proof (split_slash_no_slash t) as H. induction H as [|c cs H1 _ IH]; [constructor|].
  cbn [filter]. destruct (bytes_eqb c []) eqn:E; cbn [negb]; [exact IH|]. constructor; [|exact IH].
  apply bytes_eqb_neq in E. auto.
Qed.

(** ** Unfolding resolution *)
Definition is_last_comp (cs' : list bytes) : bool := match cs' with [] => true | _ => false end.
Lemma resolve_nil s b n cur : resolve s b n cur [] = Ok cur.
Proof. destruct n; reflexivity. Qed.
Lemma resolve_cons s b n cur c cs :
  resolve s b n cur (c :: cs) =
    if bytes_eqb c dot then resolve s b n cur cs
    else if bytes_eqb c dotdot then resolve s b n (removelast cur) cs
    else match f_tree s (cur ++ [c]) with
         | Some (FDir _) => resolve s b n (cur ++ [c]) cs
         | Some (FFile _) => if is_last_comp cs then Ok (cur ++ [c]) else Err ENotDir
         | None => if is_last_comp cs then Ok (cur ++ [c]) else Err ENoEnt
         | Some (FLink t) =>
             if is_last_comp cs && negb b then Ok (cur ++ [c])
             else match n with
                  | O => Err ELoop
                  | S n' => resolve s b n' (if is_abs t then [] else cur) (pcomps t ++ cs)
                  end
         end.
Proof. destruct n; reflexivity. Qed.

Lemma resolve_ext s s' b : f_tree s' = f_tree s -> forall n cur cs, resolve s' b n cur cs = resolve s b n cur cs.
Proof.
  intros H. induction n as [|n IHn]; intros cur cs; revert cur; induction cs as [|c cs IHc]; intros cur.
  all: try (rewrite !resolve_nil; reflexivity).
  all: rewrite !resolve_cons, H, !IHc; destruct (f_tree s (cur ++ [c])) as [[| |]|]; try reflexivity.
  rewrite IHn. reflexivity.
Qed.

(** ** Lexical resolution: no symlinks on the way *)
Definition nolink (s : fsys) (l : loc) : Prop :=
  forall q t, at_or_below q l -> q <> l -> f_tree s q <> Some (FLink t).
Definition alldirs (s : fsys) (l : loc) : Prop :=
  forall q, at_or_below q l -> q <> l -> exists m, f_tree s q = Some (FDir m).

Lemma alldirs_nolink s l : alldirs s l -> nolink s l.
Proof. intros H q t Hq Hne. destruct (H q Hq Hne) as [m Hm]. congruence. Qed.

Lemma app_cons_assoc {A} (a : list A) x b : a ++ x :: b = (a ++ [x]) ++ b.
Proof. rewrite <- app_assoc. reflexivity. Qed.
Lemma app_cons_ne {A} (a : list A) x b : a <> a ++ x :: b.
Proof. intros H. rewrite <- (app_nil_r a) in H at 1. apply app_inv_head in H. discriminate. Qed.

Lemma normal_flags c : normal c -> bytes_eqb c dot = false /\ bytes_eqb c dotdot = false.
Proof. intros (_ & H1 & H2). split; apply bytes_eqb_neq; assumption. Qed.

Lemma resolve_lex s b n cs : forall cur l,
  Forall normal cs -> nolink s (cur ++ cs) ->
  (b = true -> forall t, f_tree s (cur ++ cs) <> Some (FLink t)) ->
  resolve s b n cur cs = Ok l -> l = cur ++ cs.
Proof.
  induction cs as [|c cs IH]; intros cur l Hn Hl Hb.
  - rewrite resolve_nil, app_nil_r. congruence.
  - inversion Hn as [|? ? Hc Hcs]; subst. destruct (normal_flags c Hc) as [F1 F2].
    rewrite resolve_cons, F1, F2. rewrite (app_cons_assoc cur c cs) in *.
    destruct (f_tree s (cur ++ [c])) as [[m|t|i]|] eqn:E.
    + intros H. apply IH in H; auto.
    + destruct cs as [|c' cs].
      * rewrite !app_nil_r in *. destruct b; cbn [is_last_comp andb negb]; [exfalso; eapply Hb; eauto|intros H; injection H; auto].
      * exfalso. apply (Hl (cur ++ [c]) t (below_app _ _)); [|exact E]. apply app_cons_ne.
    + destruct cs; cbn [is_last_comp]; [rewrite app_nil_r; intros H; injection H; auto|discriminate].
    + destruct cs; cbn [is_last_comp]; [rewrite app_nil_r; intros H; injection H; auto|discriminate].
Qed.

Lemma resolve_dirs s b n cs : forall cur,
  Forall normal cs -> (forall q, at_or_below cur q -> at_or_below q (cur ++ cs) -> q <> cur -> q <> cur ++ cs -> exists m, f_tree s q = Some (FDir m)) ->
  (b = true -> forall t, f_tree s (cur ++ cs) <> Some (FLink t)) ->
  resolve s b n cur cs = Ok (cur ++ cs).
Proof.
  induction cs as [|c cs IH]; intros cur Hn Hl Hb.
  - rewrite resolve_nil, app_nil_r. reflexivity.
  - inversion Hn as [|? ? Hc Hcs]; subst. destruct (normal_flags c Hc) as [F1 F2].
    rewrite resolve_cons, F1, F2. rewrite (app_cons_assoc cur c cs) in *.
    assert (Hstep : (exists m, f_tree s (cur ++ [c]) = Some (FDir m)) -> resolve s b n (cur ++ [c]) cs = Ok ((cur ++ [c]) ++ cs)).
    { intros _. apply IH; auto. intros q Hq Hq' Hne Hne'. apply Hl; auto.
      - eapply below_trans; [apply below_app|exact Hq].
      - intros ->. apply below_len in Hq. rewrite app_length in Hq. cbn in Hq. lia. }
    destruct cs as [|c' cs].
    + rewrite app_nil_r in *. destruct (f_tree s (cur ++ [c])) as [[m|t|i]|] eqn:E; cbn [is_last_comp]; auto.
      * rewrite resolve_nil. reflexivity.
      * destruct b; [exfalso; eapply Hb; eauto|reflexivity].
    + destruct (Hl (cur ++ [c])) as [m Hm].
      * apply below_app.
      * apply below_app.
      * intros H. symmetry in H. exact (app_cons_ne _ _ _ H).
      * apply app_cons_ne.
      * rewrite Hm. apply Hstep. eauto.
Qed.

Lemma resolve_path_lex s b l l' :
  Forall normal l -> nolink s l -> (b = true -> forall t, f_tree s l <> Some (FLink t)) ->
  resolve_path s b (render l) = Ok l' -> l' = l.
Proof.
  intros Hn Hl Hb. unfold resolve_path. rewrite is_abs_render, pcomps_render by exact Hn.
  intros H. apply resolve_lex in H; auto.
Qed.
Lemma resolve_path_dirs s b l :
  Forall normal l -> alldirs s l -> (b = true -> forall t, f_tree s l <> Some (FLink t)) ->
  resolve_path s b (render l) = Ok l.
Proof.
  intros Hn Hl Hb. unfold resolve_path. rewrite is_abs_render, pcomps_render by exact Hn.
  apply (resolve_dirs s b max_links l []); auto.
Qed.
Lemma resolve_path_ext s s' b p : f_tree s' = f_tree s -> f_wd s' = f_wd s -> resolve_path s' b p = resolve_path s b p.
Proof. intros H1 H2. unfold resolve_path. rewrite H2. apply resolve_ext. exact H1. Qed.
