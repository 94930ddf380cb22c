(** FolderMisc_proofs.v -- which errors FolderSink reports; its writers and
    open files; Nuke; ignored names. *)
From Verif Require Import Base Base_proofs Path PathSpec Path_proofs Source Sink SinkSpec FS FS_proofs FolderSink FSteps_proofs FSLex_proofs FolderSpec Folder_proofs Confine_proofs.

(** ** ErrPathTraversal never comes from the operating system *)
Lemma ws_trav x : with_stack x = ETraversal -> x = ETraversal.
Proof. destruct x; cbn; congruence. Qed.

Lemma resolve_notrav s b n : forall cs cur x, resolve s b n cur cs = Err x -> x <> ETraversal.
Proof.
  induction n as [|n IHn]; induction cs as [|c cs IHc]; intros cur x; try (rewrite resolve_nil; discriminate).
  all: rewrite resolve_cons; destruct (bytes_eqb c dot); [apply IHc|]; destruct (bytes_eqb c dotdot); [apply IHc|].
  all: destruct (f_tree s (cur ++ [c])) as [[m|t|i]|]; [apply IHc| | |].
  all: try (destruct (is_last_comp cs); congruence).
  all: destruct (is_last_comp cs && negb b); try congruence. apply IHn.
Qed.

Lemma tick_notrav s s' fl : tick s = (s', fl) -> os_errors s -> os_errors s' /\ forall f, fl = Some f -> fl_err f <> ETraversal.
Proof.
  unfold tick. intros E H. injection E as <- <-. split.
  - intros n f Hf. cbn in Hf. exact (H (S n) f Hf).
  - intros f Hf. exact (H 0%nat f Hf).
Qed.

Ltac nt_tick := match goal with
  | H : os_errors ?s, E : tick ?s = _ |- _ =>
      let a := fresh in let b := fresh "Hfl" in destruct (tick_notrav _ _ _ E H) as [a b]; clear E
  end.
Ltac nt_resolve := match goal with
  | E : resolve_path _ _ _ = Err ?x |- _ => lazymatch goal with | _ : x <> ETraversal |- _ => fail | _ => idtac end;
      assert (x <> ETraversal) by (eapply resolve_notrav; exact E)
  end.
Ltac nt_end := repeat nt_resolve; intuition (try congruence);
  try (match goal with Hfl : forall f, Some ?f0 = Some f -> _ |- _ => specialize (Hfl f0 eq_refl) end; congruence).

Lemma stat_notrav s b p s' r : sys_stat s b p = (s', r) -> os_errors s -> os_errors s' /\ r <> Err ETraversal.
Proof.
  unfold sys_stat. destruct (tick s) as [s1 fl] eqn:Ht. intros E H. nt_tick.
  destruct fl as [f|]; [injection E as <- <-; nt_end|].
  destruct (resolve_path s1 b p) as [l|x| |] eqn:Er; [destruct (f_tree s1 l)|..]; injection E as <- <-; nt_end.
Qed.
Lemma mkdir_notrav s p m s' r : sys_mkdir s p m = (s', r) -> os_errors s -> os_errors s' /\ r <> Some ETraversal.
Proof.
  unfold sys_mkdir. destruct (tick s) as [s1 fl] eqn:Ht. intros E H. nt_tick.
  destruct fl as [f|]; [injection E as <- <-; nt_end|].
  destruct (resolve_path s1 false p) as [l|x| |] eqn:Er; [destruct (f_tree s1 l)|..]; injection E as <- <-; nt_end.
Qed.
Lemma mkdir_all_notrav m rcs : forall s s' r, mkdir_all s rcs m = (s', r) -> os_errors s -> os_errors s' /\ r <> Some ETraversal.
Proof.
  assert (Tail : forall p s s' r, (let '(s, e) := sys_mkdir s p m in
     match e with
     | None => (s, None)
     | Some _ => let '(s, r) := sys_stat s false p in
                 match r with Ok n => if is_dir n then (s, None) else (s, e) | _ => (s, e) end
     end) = (s', r) -> os_errors s -> os_errors s' /\ r <> Some ETraversal).
  { intros p s s' r E H. destruct (sys_mkdir s p m) as [s1 r1] eqn:E1. destruct (mkdir_notrav _ _ _ _ _ E1 H) as [H1 N1].
    destruct r1; [|injection E as <- <-; split; [exact H1|discriminate]].
    destruct (sys_stat s1 false p) as [s2 r2] eqn:E2. destruct (stat_notrav _ _ _ _ _ E2 H1) as [H2 _].
    destruct r2 as [n| | |]; [destruct (is_dir n)|..]; injection E as <- <-; split; auto; congruence. }
  induction rcs as [|c rcs IH]; intros s s' r E H; rewrite mkdir_all_unfold in E; cbv zeta in E.
  all: match type of E with context [sys_stat ?s0 true ?y] => destruct (sys_stat s0 true y) as [s1 r1] eqn:E1 end;
       destruct (stat_notrav _ _ _ _ _ E1 H) as [H1 _].
  - destruct r1 as [n| | |]; [destruct (is_dir n); injection E as <- <-; split; auto; congruence|..]; exact (Tail _ _ _ _ E H1).
  - destruct r1 as [n| | |]; [destruct (is_dir n); injection E as <- <-; split; auto; congruence|..].
    all: match type of E with context [match ?t with (_, _) => _ end] => destruct t as [s2 r2] eqn:E2 end.
    all: assert (K : os_errors s2 /\ r2 <> Some ETraversal)
           by (destruct rcs as [|c' rcs']; [injection E2 as <- <-; split; [exact H1|discriminate]|eapply IH; eassumption]).
    all: destruct K as [H2 N2]; destruct r2; [injection E as <- <-; split; assumption|exact (Tail _ _ _ _ E H2)].
Qed.
Lemma remove_notrav s p s' r : os_remove s p = (s', r) -> os_errors s -> os_errors s' /\ r <> Some ETraversal.
Proof.
  unfold os_remove. destruct (tick (logged s p)) as [s1 fl] eqn:Ht. intros E H. assert (H0 : os_errors (logged s p)) by exact H. nt_tick.
  destruct fl as [f|]; [injection E as <- <-; nt_end|].
  destruct (resolve_path s1 false p) as [l|x| |] eqn:Er; [destruct (f_tree s1 l) as [[| |]|]|..]; injection E as <- <-; nt_end.
Qed.
Lemma remove_all_notrav s p s' r : os_remove_all s p = (s', r) -> os_errors s -> os_errors s' /\ r <> Some ETraversal.
Proof.
  unfold os_remove_all. intros E H. assert (H0 : os_errors (logged s p)) by exact H.
  destruct p as [|c p]; [injection E as <- <-; split; [exact H|discriminate]|].
  destruct (ends_with_dot _); [injection E as <- <-; split; [exact H|discriminate]|].
  destruct (tick _) as [s1 fl] eqn:Ht. nt_tick.
  destruct (resolve_path s1 false (c :: p)) as [l|x| |] eqn:Er.
  - destruct fl as [f|]; [injection E as <- <-; nt_end|]. destruct (_ || _); injection E as <- <-; nt_end.
  - destruct fl as [f|]; [injection E as <- <-; nt_end|]. nt_resolve. destruct x; injection E as <- <-; nt_end.
  - injection E as <- <-; nt_end.
  - injection E as <- <-; nt_end.
Qed.
Lemma symlink_notrav s t p s' r : os_symlink s t p = (s', r) -> os_errors s -> os_errors s' /\ r <> Some ETraversal.
Proof.
  unfold os_symlink. destruct (tick (logged s p)) as [s1 fl] eqn:Ht. intros E H. assert (H0 : os_errors (logged s p)) by exact H. nt_tick.
  destruct fl as [f|]; [injection E as <- <-; nt_end|].
  destruct (resolve_path s1 false p) as [l|x| |] eqn:Er; [destruct (f_tree s1 l)|..]; injection E as <- <-; nt_end.
Qed.
Lemma open_notrav s p m s' r : os_open_create s p m = (s', r) -> os_errors s -> os_errors s' /\ r <> Err ETraversal.
Proof.
  unfold os_open_create. destruct (tick (logged s p)) as [s1 fl] eqn:Ht. intros E H. assert (H0 : os_errors (logged s p)) by exact H. nt_tick.
  destruct fl as [f|]; [injection E as <- <-; nt_end|]. cbv zeta in E.
  destruct (resolve_path s1 true p) as [l|x| |] eqn:Er; [destruct (f_tree s1 l) as [[| |]|]|..]; injection E as <- <-; nt_end.
Qed.
Ltac nt_file := match goal with
  | |- context [on_file ?s ?h] => unfold on_file; let Hh := fresh "Hh" in destruct (f_hand s h) as [x|] eqn:Hh; intros E H; [|injection E as <- <-; split; [exact H|congruence]];
      let s1 := fresh "s1" in let fl := fresh "fl" in let Ht := fresh "Ht" in destruct (tick s) as [s1 fl] eqn:Ht; nt_tick
  end.
Lemma chmod_notrav s h m s' r : f_chmod s h m = (s', r) -> os_errors s -> os_errors s' /\ r <> Some ETraversal.
Proof. unfold f_chmod. nt_file. destruct fl; injection E as <- <-; nt_end. Qed.
Lemma seek_notrav s h m s' r : f_seek s h m = (s', r) -> os_errors s -> os_errors s' /\ r <> Some ETraversal.
Proof. unfold f_seek. nt_file. destruct fl; [injection E as <- <-; nt_end|]. destruct (m <? 0); injection E as <- <-; nt_end. Qed.
Lemma truncate_notrav s h m s' r : f_truncate s h m = (s', r) -> os_errors s -> os_errors s' /\ r <> Some ETraversal.
Proof. unfold f_truncate. nt_file. destruct fl; [injection E as <- <-; nt_end|]. destruct (m <? 0); injection E as <- <-; nt_end. Qed.
Lemma write_notrav s h d s' n r : f_write s h d = (s', (n, r)) -> os_errors s -> os_errors s' /\ r <> Some ETraversal.
Proof.
  unfold f_write. nt_file. cbv zeta in E. destruct (match fl with Some f => firstn (fl_n f) d | None => d end); injection E as <- <- <-; (split; [assumption|]); destruct fl; nt_end.
Qed.
Lemma fclose_notrav s h s' r : f_close s h = (s', r) -> os_errors s -> os_errors s' /\ r <> Some ETraversal.
Proof. unfold f_close. nt_file. injection E as <- <-. destruct fl; nt_end. Qed.
Lemma ox_notrav s h n s' r : ox_preallocate s h n = (s', r) -> os_errors s -> os_errors s' /\ r <> Some ETraversal.
Proof. unfold ox_preallocate. nt_file. injection E as <- <-. destruct fl; nt_end. Qed.
Lemma omap_ws r : r <> Some ETraversal -> option_map with_stack r <> Some ETraversal.
Proof. destruct r as [x|]; cbn; [|congruence]. intros H E. apply H. f_equal. apply ws_trav. congruence. Qed.
Lemma legacy_notrav s h n s' r : legacy_preallocate s h n = (s', r) -> os_errors s -> os_errors s' /\ r <> Some ETraversal.
Proof.
  unfold legacy_preallocate. destruct (f_hand s h); intros E H; [|injection E as <- <-; split; [exact H|congruence]].
  destruct (f_seek s h _) as [s1 r1] eqn:E1. destruct (seek_notrav _ _ _ _ _ E1 H) as [H1 N1].
  destruct r1 as [y|]; [injection E as <- <-; split; [exact H1|exact (omap_ws (Some y) N1)]|].
  destruct (0 <? _); [|injection E as <- <-; split; [exact H1|congruence]].
  destruct (f_write s1 h _) as [s2 [n2 r2]] eqn:E2. destruct (write_notrav _ _ _ _ _ _ E2 H1) as [H2 N2].
  injection E as <- <-. split; [exact H2|exact (omap_ws _ N2)].
Qed.

Section Trav.
  Context (c : fcfg) (e : entry) (dst : bytes).
  Hypothesis Hd : dest_path (fc_wd c) (fc_dir c) (en_path e) = Ok dst.

  Lemma create_notrav s s' r : create_file c s e = (s', r) -> os_errors s -> os_errors s' /\ r <> Err ETraversal.
  Proof.
    unfold create_file. rewrite Hd. intros E H.
    destruct (os_mkdir_all s _ lucky_mode) as [s1 r1] eqn:E1. destruct (mkdir_all_notrav _ _ _ _ _ E1 H) as [H1 N1].
    destruct r1 as [y|]; [injection E as <- <-; split; [exact H1|intros X; apply N1; f_equal; apply ws_trav; congruence]|].
    destruct (os_lstat s1 dst) as [s2 st] eqn:E2. destruct (stat_notrav _ _ _ _ _ E2 H1) as [H2 _].
    destruct (match st with Ok n => if is_link n then os_remove_all s2 dst else (s2, None) | _ => (s2, None) end) as [s3 r3] eqn:E3.
    assert (K : os_errors s3 /\ r3 <> Some ETraversal).
    { destruct st as [n| | |]; [destruct (is_link n); [exact (remove_all_notrav _ _ _ _ E3 H2)|]|..]; injection E3 as <- <-; split; auto; congruence. }
    destruct K as [H3 N3].
    destruct r3 as [y|]; [injection E as <- <-; split; [exact H3|intros X; apply N3; f_equal; apply ws_trav; congruence]|].
    cbv zeta in E. destruct (os_open_create s3 dst _) as [s4 r4] eqn:E4. destruct (open_notrav _ _ _ _ _ E4 H3) as [H4 N4].
    destruct r4 as [h|y| |]; try (injection E as <- <-; split; [exact H4|congruence]).
    - destruct st as [n| | |]; try (injection E as <- <-; split; [exact H4|congruence]).
      destruct (f_chmod s4 h _) as [s5 r5] eqn:E5. destruct (chmod_notrav _ _ _ _ _ E5 H4) as [H5 N5].
      destruct r5 as [y|]; injection E as <- <-; (split; [exact H5|]); [intros X; apply N5; f_equal; apply ws_trav; congruence|congruence].
    - injection E as <- <-; split; [exact H4|intros X; apply N4; f_equal; apply ws_trav; congruence].
  Qed.

  Lemma mkdir_call_notrav k k' r : fk_mkdir c k e = (k', r) -> os_errors (fk_fs k) -> r <> Some ETraversal.
  Proof.
    unfold fk_mkdir. destruct (should_ignore _); [congruence|]. rewrite Hd. intros E H.
    destruct (os_lstat (fk_fs k) dst) as [s1 st] eqn:E1. destruct (stat_notrav _ _ _ _ _ E1 H) as [H1 _].
    assert (T : forall s, os_errors s -> (let '(s0, er) := os_mkdir_all s dst dir_mode in (set_fs k s0, option_map with_stack er)) = (k', r) -> r <> Some ETraversal).
    { intros s Hs. destruct (os_mkdir_all s dst dir_mode) as [s2 r2] eqn:E2. destruct (mkdir_all_notrav _ _ _ _ _ E2 Hs) as [_ N]. intros X. injection X as <- <-. apply omap_ws, N. }
    destruct st as [n| | |]; try (apply (T _ H1 E)). destruct (is_dir n); [congruence|].
    destruct (os_remove s1 dst) as [s2 r2] eqn:E2. destruct (remove_notrav _ _ _ _ E2 H1) as [H2 N2].
    destruct r2 as [y|]; [injection E as <- <-; exact (omap_ws (Some y) N2)|]. exact (T _ H2 E).
  Qed.
  Lemma getw_call_notrav k k' r : fk_getw c k e = (k', r) -> os_errors (fk_fs k) -> r <> Err ETraversal.
  Proof.
    unfold fk_getw. destruct (should_ignore _); [congruence|]. intros E H.
    destruct (create_file c (fk_fs k) e) as [s1 r1] eqn:E1. destruct (create_notrav _ _ _ E1 H) as [H1 N1].
    destruct r1 as [h|y| |]; try congruence; [|injection E as <- <-; intros X; apply N1; f_equal; apply ws_trav; congruence].
    destruct (if 0 <? en_woff e then f_seek s1 h (en_woff e) else (s1, None)) as [s2 r2] eqn:E2.
    assert (K : os_errors s2 /\ r2 <> Some ETraversal).
    { destruct (0 <? en_woff e); [exact (seek_notrav _ _ _ _ _ E2 H1)|injection E2 as <- <-; split; [exact H1|congruence]]. }
    destruct K as [H2 N2]. destruct r2 as [y|]; [injection E as <- <-; intros X; apply N2; f_equal; apply ws_trav; congruence|].
    destruct (f_truncate s2 h (en_woff e)) as [s3 r3] eqn:E3. destruct (truncate_notrav _ _ _ _ _ E3 H2) as [H3 N3].
    destruct r3 as [y|]; [injection E as <- <-; intros X; apply N3; f_equal; apply ws_trav; congruence|].
    destruct (fk_close _); injection E as <- <-; congruence.
  Qed.
  Lemma prealloc_call_notrav k k' r : fk_prealloc c k e = (k', r) -> os_errors (fk_fs k) -> r <> Some ETraversal.
  Proof.
    unfold fk_prealloc. destruct (should_ignore _); [congruence|]. intros E H.
    destruct (create_file c (fk_fs k) e) as [s1 r1] eqn:E1. destruct (create_notrav _ _ _ E1 H) as [H1 N1].
    destruct r1 as [h|y| |]; try (injection E as <- <-; congruence); [|injection E as <- <-; intros X; apply N1; f_equal; apply ws_trav; congruence].
    match type of E with (let '(_, _) := ?X in _) = _ => destruct X as [s2 r2] eqn:E2 end.
    assert (K : os_errors s2 /\ r2 <> Some ETraversal).
    { destruct (0 <? en_usize e); [|injection E2 as <- <-; split; [exact H1|congruence]].
      destruct (fc_legacy c); [exact (legacy_notrav _ _ _ _ _ E2 H1)|exact (ox_notrav _ _ _ _ _ E2 H1)]. }
    destruct K as [H2 N2]. destruct (f_close s2 h). injection E as <- <-. exact N2.
  Qed.
  Lemma symlink_call_notrav t k k' r : check_link (fc_wd c) (fc_dir c) dst t = Ok tt -> fk_symlink c k e t = (k', r) -> os_errors (fk_fs k) -> r <> Some ETraversal.
  Proof.
    intros Hc. unfold fk_symlink. destruct (should_ignore _); [congruence|]. rewrite Hd, Hc. intros E H.
    destruct (os_remove_all (fk_fs k) dst) as [s1 r1] eqn:E1. destruct (remove_all_notrav _ _ _ _ E1 H) as [H1 N1].
    destruct r1 as [y|]; [injection E as <- <-; exact (omap_ws (Some y) N1)|].
    destruct (os_mkdir_all s1 _ lucky_mode) as [s2 r2] eqn:E2. destruct (mkdir_all_notrav _ _ _ _ _ E2 H1) as [H2 N2].
    destruct r2 as [y|]; [injection E as <- <-; exact (omap_ws (Some y) N2)|].
    destruct (os_symlink s2 t dst) as [s3 r3] eqn:E3. destruct (symlink_notrav _ _ _ _ _ E3 H2) as [_ N3].
    injection E as <- <-. apply omap_ws, N3.
  Qed.
End Trav.

(** ** Ignored names *)
Lemma strip_slashes_spec p : exists sl, p = strip_slashes p ++ sl /\ Forall (eq slash) sl.
Proof.
  induction p as [|a p (sl & E & F)]; [exists []; split; [reflexivity|constructor]|]. cbn [strip_slashes].
  destruct (strip_slashes p) as [|b q] eqn:Es.
  - cbn in E. subst sl. destruct (beqb a slash) eqn:Ea.
    + exists (a :: p). split; [reflexivity|]. constructor; [symmetry; apply beqb_eq; exact Ea|exact F].
    + exists p. split; [reflexivity|exact F].
  - exists sl. split; [|exact F]. rewrite E at 1. reflexivity.
Qed.
Lemma strip_slashes_app q sl : Forall (eq slash) sl -> (q = [] \/ exists z y, q = z ++ [y] /\ y <> slash) -> strip_slashes (q ++ sl) = q.
Proof.
  intros F. assert (Z : strip_slashes sl = []).
  { induction F as [|x sl <- F IH]; [reflexivity|]. cbn [strip_slashes]. rewrite IH. reflexivity. }
  intros [->|(z & y & -> & Hy)]; [exact Z|]. rewrite <- app_assoc. cbn [app].
  induction z as [|x z IH]; cbn [app strip_slashes].
  - rewrite Z. destruct (beqb y slash) eqn:E; [apply beqb_eq in E; congruence|reflexivity].
  - rewrite IH. destruct z; reflexivity.
Qed.
Lemma last_component q : exists pre, q = pre ++ List.last (split_slash q) [] /\ (pre = [] \/ exists z, pre = z ++ [slash]).
Proof.
  induction q as [|a q (pre & E & P)]; [exists []; auto|]. cbn [split_slash]. destruct (beqb a slash) eqn:Ea.
  - apply beqb_eq in Ea. subst a. destruct (split_slash q) as [|w ws] eqn:Es; [exfalso; exact (split_slash_nonnil q Es)|].
    exists (slash :: pre). split; [rewrite E at 1; reflexivity|]. right. destruct P as [->|[z ->]]; [exists []|exists (slash :: z)]; reflexivity.
  - destruct (split_slash q) as [|w ws] eqn:Es; [exfalso; exact (split_slash_nonnil q Es)|].
    destruct ws as [|w' ws].
    + cbn [List.last] in *. assert (pre = []) as ->.
      { destruct P as [->|[z ->]]; [reflexivity|]. exfalso. assert (Hs : split_slash q = [w]) by exact Es.
        rewrite E, <- app_assoc in Hs. cbn [app] in Hs. rewrite split_slash_app_gen in Hs.
        apply (f_equal (@length _)) in Hs. rewrite app_length in Hs. cbn in Hs.
        pose proof (split_slash_nonnil z). pose proof (split_slash_nonnil w).
        destruct (split_slash z); [congruence|]. destruct (split_slash w); [congruence|]. cbn in Hs. lia. }
      exists []. split; [rewrite E at 1; reflexivity|auto].
    + exists (a :: pre). split; [rewrite E at 1; reflexivity|]. destruct P as [->|[z ->]]; [|right; exists (a :: z); reflexivity].
      exfalso. cbn [app] in E. pose proof (split_slash_no_slash q) as F. rewrite Es in F.
      assert (Hl : ~ In slash (List.last (w :: w' :: ws) [])).
      { rewrite Forall_forall in F. apply F. clear. revert w w'. induction ws as [|x ws IH]; intros w w'; [right; left; reflexivity|].
        right. change (List.last (w :: w' :: x :: ws) []) with (List.last (w' :: x :: ws) []). apply IH. }
      rewrite <- E in Hl. apply split_slash_single in Hl. congruence.
Qed.

Lemma should_ignore_spec cp : should_ignore cp = true <->
  exists pre sl, cp = pre ++ icon_cr ++ sl /\ (pre = [] \/ exists z, pre = z ++ [slash]) /\ Forall (eq slash) sl.
Proof.
  unfold should_ignore. rewrite bytes_eqb_eq. split.
  - intros H. unfold path_base in H. destruct cp as [|a cp0] eqn:Ec; [discriminate H|]. rewrite <- Ec in *. clear a cp0 Ec.
    destruct (strip_slashes_spec cp) as (sl & E & F). destruct (strip_slashes cp) as [|b q] eqn:Es; [discriminate H|].
    rewrite <- Es in *. destruct (last_component (strip_slashes cp)) as (pre & E' & P). rewrite H in E'.
    exists pre, sl. splits; auto. rewrite app_assoc, <- E'. exact E.
  - intros (pre & sl & -> & P & F). assert (Hns : ~ In slash icon_cr) by (unfold icon_cr; cbn; intros X; repeat (destruct X as [X|X]; [discriminate X|]); exact X).
    assert (Es : strip_slashes (pre ++ icon_cr ++ sl) = pre ++ icon_cr).
    { rewrite app_assoc. apply strip_slashes_app; [exact F|]. right. exists (pre ++ s2b "Icon"), (ascii_of_nat 13).
      split; [rewrite <- app_assoc; reflexivity|discriminate]. }
    unfold path_base. rewrite Es. destruct (pre ++ icon_cr ++ sl) as [|x y] eqn:En; [destruct pre; discriminate|].
    destruct (pre ++ icon_cr) as [|x' y'] eqn:En'; [destruct pre; discriminate|]. rewrite <- En'.
    destruct P as [->|[z ->]]; [cbn [app]; rewrite split_slash_single by exact Hns; reflexivity|].
    rewrite <- app_assoc. cbn [app]. rewrite split_slash_app_gen, (split_slash_single icon_cr Hns), last_last. reflexivity.
Qed.

(** ** Open files *)
Definition samehand (s s' : fsys) : Prop := f_hand s' = f_hand s.
Lemma tick_hand s s' f : tick s = (s', f) -> f_hand s' = f_hand s.
Proof. unfold tick. intros E. injection E as <- <-. reflexivity. Qed.
Lemma stat_hand s b p s' r : sys_stat s b p = (s', r) -> f_hand s' = f_hand s.
Proof.
  unfold sys_stat. destruct (tick s) as [s1 fl] eqn:Ht. apply tick_hand in Ht. intros E.
  destruct fl; [injection E as <- <-; exact Ht|]. destruct (resolve_path s1 b p); [destruct (f_tree s1 a)|..]; injection E as <- <-; exact Ht.
Qed.
Lemma mkdir_hand s p m s' r : sys_mkdir s p m = (s', r) -> f_hand s' = f_hand s.
Proof.
  unfold sys_mkdir. destruct (tick s) as [s1 fl] eqn:Ht. apply tick_hand in Ht. intros E.
  destruct fl; [injection E as <- <-; exact Ht|]. destruct (resolve_path s1 false p); [destruct (f_tree s1 a)|..]; injection E as <- <-; exact Ht.
Qed.
Lemma mkdir_all_hand m rcs : forall s s' r, mkdir_all s rcs m = (s', r) -> f_hand s' = f_hand s.
Proof.
  assert (Tail : forall p s s' r, (let '(s, e) := sys_mkdir s p m in
     match e with
     | None => (s, None)
     | Some _ => let '(s, r) := sys_stat s false p in
                 match r with Ok n => if is_dir n then (s, None) else (s, e) | _ => (s, e) end
     end) = (s', r) -> f_hand s' = f_hand s).
  { intros p s s' r E. destruct (sys_mkdir s p m) as [s1 r1] eqn:E1. apply mkdir_hand in E1.
    destruct r1; [|injection E as <- <-; exact E1].
    destruct (sys_stat s1 false p) as [s2 r2] eqn:E2. apply stat_hand in E2.
    destruct r2 as [n| | |]; [destruct (is_dir n)|..]; injection E as <- <-; congruence. }
  induction rcs as [|c rcs IH]; intros s s' r E; rewrite mkdir_all_unfold in E; cbv zeta in E.
  all: match type of E with context [sys_stat ?s0 true ?y] => destruct (sys_stat s0 true y) as [s1 r1] eqn:E1 end; apply stat_hand in E1.
  - destruct r1 as [n| | |]; [destruct (is_dir n); injection E as <- <-; exact E1|..]; apply Tail in E; congruence.
  - destruct r1 as [n| | |]; [destruct (is_dir n); injection E as <- <-; exact E1|..].
    all: match type of E with context [match ?t with (_, _) => _ end] => destruct t as [s2 r2] eqn:E2 end.
    all: assert (K : f_hand s2 = f_hand s1)
           by (destruct rcs as [|c' rcs']; [injection E2 as <- <-; reflexivity|eapply IH; eassumption]).
    all: destruct r2; [injection E as <- <-; congruence|apply Tail in E; congruence].
Qed.
Lemma os_mkdir_all_hand s p m s' r : os_mkdir_all s p m = (s', r) -> f_hand s' = f_hand s.
Proof. intros E. apply mkdir_all_hand in E. exact E. Qed.
Lemma os_lstat_hand s p s' r : os_lstat s p = (s', r) -> f_hand s' = f_hand s.
Proof. intros E. apply stat_hand in E. exact E. Qed.
Lemma remove_hand s p s' r : os_remove s p = (s', r) -> f_hand s' = f_hand s.
Proof.
  unfold os_remove. destruct (tick (logged s p)) as [s1 fl] eqn:Ht. apply tick_hand in Ht. intros E.
  destruct fl as [f|]; [injection E as <- <-; exact Ht|].
  destruct (resolve_path s1 false p) as [l|x| |]; [destruct (f_tree s1 l) as [[| |]|]|..]; injection E as <- <-; exact Ht.
Qed.
Lemma remove_all_hand s p s' r : os_remove_all s p = (s', r) -> f_hand s' = f_hand s.
Proof.
  unfold os_remove_all. intros E. destruct p as [|c p]; [injection E as <- <-; reflexivity|].
  destruct (ends_with_dot _); [injection E as <- <-; reflexivity|].
  destruct (tick _) as [s1 fl] eqn:Ht. apply tick_hand in Ht.
  destruct (resolve_path s1 false (c :: p)) as [l|x| |].
  - destruct fl as [f|]; [injection E as <- <-; exact Ht|]. destruct (_ || _); injection E as <- <-; exact Ht.
  - destruct fl as [f|]; [injection E as <- <-; exact Ht|]. injection E as <- <-; exact Ht.
  - injection E as <- <-; exact Ht.
  - injection E as <- <-; exact Ht.
Qed.
Lemma symlink_hand s t p s' r : os_symlink s t p = (s', r) -> f_hand s' = f_hand s.
Proof.
  unfold os_symlink. destruct (tick (logged s p)) as [s1 fl] eqn:Ht. apply tick_hand in Ht. intros E.
  destruct fl as [f|]; [injection E as <- <-; exact Ht|].
  destruct (resolve_path s1 false p) as [l|x| |]; [destruct (f_tree s1 l)|..]; injection E as <- <-; exact Ht.
Qed.

(** no new open files *)
Definition hsub (s s' : fsys) : Prop := forall h, f_hand s' h <> None -> f_hand s h <> None.
Lemma hsub_refl s : hsub s s. Proof. intros h H. exact H. Qed.
Lemma hsub_eq s s' : f_hand s' = f_hand s -> hsub s s'. Proof. intros H h. rewrite H. auto. Qed.
Lemma hsub_trans a b c : hsub a b -> hsub b c -> hsub a c. Proof. intros H1 H2 h H. apply H1, H2, H. Qed.
Lemma hsub_set s h x : f_hand s h <> None -> hsub s (set_hand s h x).
Proof. intros H j Hj. cbn in Hj. destruct (Nat.eqb j h) eqn:E; [apply Nat.eqb_eq in E; subst; exact H|exact Hj]. Qed.
Ltac hs_file := match goal with
  | |- context [on_file ?s ?h] => unfold on_file; let Hh := fresh "Hh" in destruct (f_hand s h) as [x|] eqn:Hh; intros E; [|injection E as <- <-; apply hsub_refl];
      let s1 := fresh "s1" in let fl := fresh "fl" in let Ht := fresh "Ht" in destruct (tick s) as [s1 fl] eqn:Ht; apply tick_hand in Ht;
      assert (Hs1 : hsub s s1) by (apply hsub_eq; exact Ht); assert (Hh1 : f_hand s1 h <> None) by (rewrite Ht, Hh; discriminate)
  end.
Lemma chmod_hsub s h m s' r : f_chmod s h m = (s', r) -> hsub s s'.
Proof. unfold f_chmod. hs_file. destruct fl; injection E as <- <-; exact Hs1. Qed.
Lemma seek_hsub s h m s' r : f_seek s h m = (s', r) -> hsub s s'.
Proof.
  unfold f_seek. hs_file. destruct fl; [injection E as <- <-; exact Hs1|]. destruct (m <? 0); injection E as <- <-; [exact Hs1|].
  eapply hsub_trans; [exact Hs1|apply hsub_set; exact Hh1].
Qed.
Lemma truncate_hsub s h m s' r : f_truncate s h m = (s', r) -> hsub s s'.
Proof. unfold f_truncate. hs_file. destruct fl; [injection E as <- <-; exact Hs1|]. destruct (m <? 0); injection E as <- <-; exact Hs1. Qed.
Lemma write_hsub s h d s' r : f_write s h d = (s', r) -> hsub s s'.
Proof.
  unfold f_write. hs_file. cbv zeta in E. destruct (match fl with Some f => firstn (fl_n f) d | None => d end); injection E as <- <-; [exact Hs1|].
  eapply hsub_trans; [exact Hs1|]. match goal with |- hsub _ (set_hand ?a _ _) => apply (hsub_set a) end. exact Hh1.
Qed.
Lemma sync_hsub s h s' r : f_sync s h = (s', r) -> hsub s s'.
Proof. unfold f_sync. hs_file. destruct fl; injection E as <- <-; exact Hs1. Qed.
Lemma close_hsub s h s' r : f_close s h = (s', r) -> hsub s s' /\ f_hand s' h = None.
Proof.
  unfold f_close, on_file. destruct (f_hand s h) as [x|] eqn:Hh; intros E; [|injection E as <- <-; split; [apply hsub_refl|exact Hh]].
  destruct (tick s) as [s1 fl] eqn:Ht; apply tick_hand in Ht. injection E as <- <-. split.
  - eapply hsub_trans; [apply hsub_eq, Ht|apply hsub_set]. rewrite Ht, Hh. discriminate.
  - cbn. rewrite Nat.eqb_refl. reflexivity.
Qed.
Lemma ox_hsub s h n s' r : ox_preallocate s h n = (s', r) -> hsub s s'.
Proof. unfold ox_preallocate. hs_file. cbv zeta in E. injection E as <- <-; exact Hs1. Qed.
Lemma legacy_hsub s h n s' r : legacy_preallocate s h n = (s', r) -> hsub s s'.
Proof.
  unfold legacy_preallocate. destruct (f_hand s h); intros E; [|injection E as <- <-; apply hsub_refl].
  destruct (f_seek s h _) as [s1 r1] eqn:E1. apply seek_hsub in E1.
  destruct r1 as [y|]; [injection E as <- <-; exact E1|].
  destruct (0 <? _); [|injection E as <- <-; exact E1].
  destruct (f_write s1 h _) as [s2 [n2 r2]] eqn:E2. apply write_hsub in E2. injection E as <- <-. eapply hsub_trans; eassumption.
Qed.
(** createFile opens at most one file *)
Lemma create_hand c e s s' r : create_file c s e = (s', r) ->
  exists h, (forall j, f_hand s' j <> None -> f_hand s j <> None \/ j = h) /\ (forall h', r = Ok h' -> h' = h).
Proof.
  unfold create_file. intros E.
  assert (H0 : forall s2, hsub s s2 -> forall j, f_hand s2 j <> None -> f_hand s j <> None \/ j = 0%nat) by (intros s2 H2 j Hj; left; apply H2; exact Hj).
  destruct (dest_path _ _ _) as [dst|x| |]; try (injection E as <- <-; exists 0%nat; split; [apply H0, hsub_refl|congruence]).
  destruct (os_mkdir_all s _ lucky_mode) as [s1 r1] eqn:E1. apply os_mkdir_all_hand, hsub_eq in E1.
  destruct r1 as [y|]; [injection E as <- <-; exists 0%nat; split; [apply H0; assumption|congruence]|].
  destruct (os_lstat s1 dst) as [s2 st] eqn:E2. apply os_lstat_hand, hsub_eq in E2. pose proof (hsub_trans _ _ _ E1 E2) as H2.
  destruct (match st with Ok n => if is_link n then os_remove_all s2 dst else (s2, None) | _ => (s2, None) end) as [s3 r3] eqn:E3.
  assert (H3 : hsub s s3).
  { destruct st as [n| | |]; [destruct (is_link n); [apply remove_all_hand, hsub_eq in E3; eapply hsub_trans; eassumption|]|..]; injection E3 as <- <-; exact H2. }
  destruct r3 as [y|]; [injection E as <- <-; exists 0%nat; split; [apply H0; assumption|congruence]|].
  cbv zeta in E. destruct (os_open_create s3 dst _) as [s4 r4] eqn:E4.
  assert (H4 : exists h, (forall j, f_hand s4 j <> None -> f_hand s j <> None \/ j = h) /\ (forall h', r4 = Ok h' -> h' = h)).
  { unfold os_open_create in E4. destruct (tick (logged s3 dst)) as [s5 fl] eqn:Ht. apply tick_hand in Ht.
    assert (H5 : hsub s s5) by (eapply hsub_trans; [exact H3|apply hsub_eq; exact Ht]). cbv zeta in E4. exists (f_nexth s5).
    assert (Hop : forall j, (if Nat.eqb j (f_nexth s5) then Some (MkH 0 0) else f_hand s5 j) <> None -> f_hand s j <> None \/ j = f_nexth s5).
    { intros j Hj. destruct (Nat.eqb j (f_nexth s5)) eqn:Ej; [right; apply Nat.eqb_eq; exact Ej|left; apply H5; exact Hj]. }
    destruct fl as [f|]; [injection E4 as <- <-; split; [intros j Hj; left; apply H5; exact Hj|congruence]|].
    destruct (resolve_path s5 true dst) as [l|x| |]; [destruct (f_tree s5 l) as [[| |]|]|..]; injection E4 as <- <-.
    all: split; try congruence; try (intros j Hj; left; apply H5; exact Hj).
    all: intros j Hj; apply Hop; cbn in Hj; destruct (Nat.eqb j (f_nexth s5)); [discriminate|exact Hj]. }
  destruct H4 as (h & H4 & H4').
  destruct r4 as [h0|y| |]; try (injection E as <- <-; exists h; split; [exact H4|congruence]).
  pose proof (H4' h0 eq_refl). destruct st as [n| | |]; try (injection E as <- <-; exists h; split; [exact H4|congruence]).
  destruct (f_chmod s4 h0 _) as [s5 r5] eqn:E5. apply chmod_hsub in E5. exists h.
  destruct r5 as [y|]; injection E as <- <-; (split; [intros j Hj; apply H4, E5, Hj|congruence]).
Qed.

(** ** Writers *)
Section Writers.
(** files that were open before *)
Context (P : nat -> Prop).
Record kinv (k : fsink) (n : nat) : Prop := {
  ki_next : forall w, (fk_nextw k <= w)%nat -> fk_ws k w = None;
  ki_one : forall w h, fk_ws k w = Some (Some h) -> fk_writer k = Some w;
  ki_open : exists L, (length L <= n)%nat /\ forall h, f_hand (fk_fs k) h <> None -> (In h L \/ P h) \/ exists w, fk_ws k w = Some (Some h) }.
Definition fails_open (o : fcall) (r : option gerr) : nat :=
  match o, r with CGetWriter _, Some _ | CPreallocate _, Some _ => 1 | _, _ => 0 end.
Lemma kinv_fs k n s : kinv k n -> hsub (fk_fs k) s -> kinv (set_fs k s) n.
Proof. intros [A B (L & HL & C)] Hs. constructor; auto. exists L. split; [exact HL|]. intros h Hh. apply C, Hs, Hh. Qed.
Lemma kinv_mono k n m : (n <= m)%nat -> kinv k n -> kinv k m.
Proof. intros H [A B (L & HL & C)]. constructor; auto. exists L. split; [lia|exact C]. Qed.

Lemma kinv_closew k n w k' r : kinv k n -> fk_closew_ k w = (k', r) ->
  kinv k' n /\ fk_writer k' = fk_writer k /\ fk_nextw k' = fk_nextw k /\ (forall h, fk_ws k' w <> Some (Some h)) /\
  (forall j, fk_ws k j = Some None -> fk_ws k' j = Some None) /\ (fk_ws k w <> None -> fk_ws k' w = Some None) /\ (forall j, j <> w -> fk_ws k' j = fk_ws k j).
Proof.
  unfold fk_closew_. intros [A B (L & HL & C)] E. destruct (fk_ws k w) as [[h|]|] eqn:Ew.
  2,3: injection E as <- <-; splits; auto; try congruence; constructor; eauto.
  destruct (f_close (fk_fs k) h) as [s1 r1] eqn:E1. apply close_hsub in E1. destruct E1 as [Hs Hn]. injection E as <- <-.
  cbn [fk_fs fk_ws fk_writer fk_nextw]. splits; auto.
  - constructor; cbn [fk_fs fk_ws fk_writer fk_nextw].
    + intros j Hj. destruct (Nat.eqb j w) eqn:Ej; [|apply A; exact Hj]. apply Nat.eqb_eq in Ej. subst j. rewrite A in Ew by exact Hj. discriminate.
    + intros j h' Hj. destruct (Nat.eqb j w) eqn:Ej; [discriminate|]. eapply B; exact Hj.
    + exists L. split; [exact HL|]. intros j Hj. destruct (C j (Hs j Hj)) as [Hin|[v Hv]]; [left; exact Hin|]. right. exists v.
      destruct (Nat.eqb v w) eqn:Ev; [|exact Hv]. apply Nat.eqb_eq in Ev. subst v. congruence.
  - intros h'. rewrite Nat.eqb_refl. discriminate.
  - intros j Hj. destruct (Nat.eqb j w); auto.
  - intros _. rewrite Nat.eqb_refl. reflexivity.
  - intros j Hj. apply Nat.eqb_neq in Hj. rewrite Hj. reflexivity.
Qed.
Lemma kinv_close k n k' r : kinv k n -> fk_close k = (k', r) ->
  kinv k' n /\ fk_nextw k' = fk_nextw k /\ fk_writer k' = None /\ (forall w h, fk_ws k' w <> Some (Some h)) /\ (forall w, fk_ws k w <> None -> fk_ws k' w = Some None).
Proof.
  unfold fk_close. intros K E. destruct (fk_writer k) as [w|] eqn:Ew.
  - destruct (fk_closew_ k w) as [k1 r1] eqn:E1. destruct (kinv_closew _ _ _ _ _ K E1) as ([A B C] & H1 & H2 & H3 & H4 & H5 & H6).
    injection E as <- <-. cbn [fk_fs fk_ws fk_writer fk_nextw].
    assert (Hn : forall v h, fk_ws k1 v <> Some (Some h)).
    { intros v h Hv. pose proof (B v h Hv) as X. rewrite H1, Ew in X. injection X as ->. exact (H3 h Hv). }
    splits; auto.
    + constructor; cbn [fk_fs fk_ws fk_writer fk_nextw]; auto. intros v h Hv. exfalso. exact (Hn v h Hv).
    + intros v Hv. destruct (Nat.eq_dec v w) as [->|Hne]; [auto|]. rewrite H6 by exact Hne. destruct (fk_ws k v) as [[h|]|] eqn:Ev; auto; [|congruence].
      pose proof (ki_one _ _ K v h Ev). congruence.
  - injection E as <- <-. destruct K as [A B C]. splits; auto; [constructor; auto|..].
    + intros w h Hw. pose proof (B w h Hw). congruence.
    + intros w Hw. destruct (fk_ws k w) as [[h|]|] eqn:Hx; auto; [|congruence]. pose proof (B w h Hx). congruence.
Qed.

Lemma kinv_nuke c k n k' r : kinv k n -> fk_nuke c k = (k', r) ->
  kinv k' n /\ fk_nextw k' = fk_nextw k /\ fk_writer k' = None /\ (forall w h, fk_ws k' w <> Some (Some h)) /\ (forall w, fk_ws k w <> None -> fk_ws k' w = Some None).
Proof.
  unfold fk_nuke. intros K E. destruct (fk_close k) as [k1 r1] eqn:E1. destruct (kinv_close _ _ _ _ K E1) as (K1 & H1 & H2 & H3 & H4).
  destruct r1; [injection E as <- <-; splits; auto|].
  destruct (os_remove_all (fk_fs k1) (fc_dir c)) as [s2 r2] eqn:E2. apply remove_all_hand, hsub_eq in E2. injection E as <- <-.
  split; [apply kinv_fs; assumption|splits; auto].
Qed.

Lemma kinv_getw c k n e k' r : kinv k n -> fk_getw c k e = (k', r) ->
  kinv k' (n + fails_open (CGetWriter e) (err_of r)) /\ (fk_nextw k <= fk_nextw k')%nat /\
  (forall w, fk_ws k w = Some None -> fk_ws k' w = Some None) /\
  (forall w, r = Ok (Some w) -> w = fk_nextw k /\ (w < fk_nextw k')%nat /\ fk_writer k' = Some w /\ (exists h, fk_ws k' w = Some (Some h)) /\ forall v, fk_ws k v <> None -> fk_ws k' v = Some None) /\
  (r = Ok None -> k' = k) /\ (forall x, r = Err x -> fk_ws k' = fk_ws k /\ fk_writer k' = fk_writer k).
Proof.
  unfold fk_getw. intros K E. destruct (should_ignore (en_path e)).
  { injection E as <- <-. splits; auto; try congruence. cbn. rewrite Nat.add_0_r. exact K. }
  destruct (create_file c (fk_fs k) e) as [s1 r1] eqn:E1. destruct (create_hand _ _ _ _ _ E1) as (h & Hh & Hr).
  assert (Fail : forall s2 x, hsub s1 s2 -> kinv (set_fs k s2) (n + fails_open (CGetWriter e) (Some x))).
  { intros s2 x H2. destruct K as [A B (L & HL & C)]. constructor; auto. exists (h :: L). cbn. split; [lia|].
    intros j Hj. destruct (Hh j (H2 j Hj)) as [Hj'| ->]; [|left; left; left; reflexivity]. destruct (C j Hj') as [[Hin|Hin]|Hw]; [left; left; right; exact Hin|left; right; exact Hin|right; exact Hw]. }
  destruct r1 as [h0|y| |]; try (injection E as <- <-; splits; auto; try congruence; apply Fail, hsub_refl).
  pose proof (Hr h0 eq_refl) as ->.
  match type of E with (let '(_, _) := ?X in _) = _ => destruct X as [s2 r2] eqn:E2 end.
  assert (H2 : hsub s1 s2) by (destruct (0 <? en_woff e); [exact (seek_hsub _ _ _ _ _ E2)|injection E2 as <- <-; apply hsub_refl]).
  destruct r2 as [y|]; [injection E as <- <-; splits; auto; try congruence; apply Fail, H2|].
  destruct (f_truncate s2 h (en_woff e)) as [s3 r3] eqn:E3. apply truncate_hsub in E3. pose proof (hsub_trans _ _ _ H2 E3) as H3.
  destruct r3 as [y|]; [injection E as <- <-; splits; auto; try congruence; apply Fail, H3|].
  destruct (fk_close (set_fs k s3)) as [k4 r4] eqn:E4. injection E as <- <-.
  assert (K3 : kinv (set_fs k s3) (n + 1)) by (apply (Fail s3 EIO); exact H3).
  assert (Hcov : exists L, (length L <= n)%nat /\ forall j, f_hand (fk_fs k4) j <> None -> (In j L \/ P j) \/ j = h).
  { destruct K as [A B (L & HL & C)]. exists L. split; [exact HL|]. intros j Hj.
    assert (Hj' : f_hand s3 j <> None /\ forall w, fk_ws k w = Some (Some j) -> False).
    { unfold fk_close in E4. cbn [set_fs fk_fs fk_ws fk_writer fk_nextw] in E4. destruct (fk_writer k) as [w|] eqn:Ew.
      - destruct (fk_closew_ (set_fs k s3) w) as [k5 r5] eqn:E5. injection E4 as <- <-. cbn [fk_fs] in Hj.
        unfold fk_closew_ in E5. cbn [set_fs fk_fs fk_ws fk_writer fk_nextw] in E5. destruct (fk_ws k w) as [[h1|]|] eqn:Ew1.
        + destruct (f_close s3 h1) as [s6 r6] eqn:E6. injection E5 as <- <-. cbn [fk_fs] in Hj. apply close_hsub in E6. destruct E6 as [Hs Hn].
          split; [apply Hs, Hj|]. intros v Hv. pose proof (B v j Hv) as X. injection X as ->. congruence.
        + injection E5 as <- <-. split; [exact Hj|]. intros v Hv. pose proof (B v j Hv) as X. injection X as ->. congruence.
        + injection E5 as <- <-. split; [exact Hj|]. intros v Hv. pose proof (B v j Hv) as X. injection X as ->. congruence.
      - injection E4 as <- <-. split; [exact Hj|]. intros v Hv. pose proof (B v j Hv). congruence. }
    destruct Hj' as [Hj1 Hj2]. destruct (Hh j (H3 j Hj1)) as [Hx| ->]; [|right; reflexivity].
    destruct (C j Hx) as [Hin|[v Hv]]; [left; exact Hin|]. exfalso. exact (Hj2 v Hv). }
  destruct (kinv_close _ _ _ _ K3 E4) as (K4 & N4 & W4 & D4 & F4). cbn [set_fs fk_nextw fk_ws] in N4, F4.
  cbn [fk_fs fk_ws fk_writer fk_nextw]. rewrite N4. splits; auto.
  - cbn [fails_open err_of]. rewrite Nat.add_0_r. constructor; cbn [fk_fs fk_ws fk_writer fk_nextw].
    + intros w Hw. destruct (Nat.eqb w (fk_nextw k)) eqn:Ej; [apply Nat.eqb_eq in Ej; lia|]. apply (ki_next _ _ K4). lia.
    + intros w h1 Hw. destruct (Nat.eqb w (fk_nextw k)) eqn:Ej; [apply Nat.eqb_eq in Ej; congruence|]. exfalso. exact (D4 _ _ Hw).
    + destruct Hcov as (L & HL & C). exists L. split; [exact HL|]. intros j Hj. destruct (C j Hj) as [Hin| ->]; [left; exact Hin|].
      right. exists (fk_nextw k). rewrite Nat.eqb_refl. reflexivity.
  - intros w Hw. destruct (Nat.eqb w (fk_nextw k)) eqn:Ej.
    + apply Nat.eqb_eq in Ej. subst w. rewrite (ki_next _ _ K) in Hw by lia. discriminate.
    + apply F4. congruence.
  - intros w Hw. injection Hw as <-. splits; auto; [exists h; rewrite Nat.eqb_refl; reflexivity|].
    intros v Hv. destruct (Nat.eqb v (fk_nextw k)) eqn:Ej.
    + apply Nat.eqb_eq in Ej. subst v. exfalso. apply Hv. apply (ki_next _ _ K). lia.
    + apply F4, Hv.
  - discriminate.
  - discriminate.
Qed.

Lemma kinv_prealloc c k n e k' r : kinv k n -> fk_prealloc c k e = (k', r) ->
  kinv k' (n + fails_open (CPreallocate e) r) /\ fk_ws k' = fk_ws k /\ fk_nextw k' = fk_nextw k.
Proof.
  unfold fk_prealloc. intros K E. destruct (should_ignore (en_path e)).
  { injection E as <- <-. splits; auto. cbn. rewrite Nat.add_0_r. exact K. }
  destruct (create_file c (fk_fs k) e) as [s1 r1] eqn:E1. destruct (create_hand _ _ _ _ _ E1) as (h & Hh & Hr).
  assert (Fail : forall x, kinv (set_fs k s1) (n + fails_open (CPreallocate e) (Some x))).
  { intros x. destruct K as [A B (L & HL & C)]. constructor; auto. exists (h :: L). cbn. split; [lia|].
    intros j Hj. destruct (Hh j Hj) as [Hj'| ->]; [|left; left; left; reflexivity]. destruct (C j Hj') as [[Hin|Hin]|Hw]; [left; left; right; exact Hin|left; right; exact Hin|right; exact Hw]. }
  destruct r1 as [h0|y| |]; try (injection E as <- <-; splits; auto; apply Fail).
  pose proof (Hr h0 eq_refl) as ->.
  match type of E with (let '(_, _) := ?X in _) = _ => destruct X as [s2 r2] eqn:E2 end.
  assert (H2 : hsub s1 s2).
  { destruct (0 <? en_usize e); [|injection E2 as <- <-; apply hsub_refl]. destruct (fc_legacy c); [exact (legacy_hsub _ _ _ _ _ E2)|exact (ox_hsub _ _ _ _ _ E2)]. }
  destruct (f_close s2 h) as [s3 r3] eqn:E3. apply close_hsub in E3. destruct E3 as [H3 N3]. injection E as <- <-. splits; auto.
  apply (kinv_mono _ n); [lia|]. apply kinv_fs; [exact K|]. intros j Hj. destruct (Hh j (H2 j (H3 j Hj))) as [Hx| ->]; [exact Hx|congruence].
Qed.

Lemma kinv_call c k n o k' r : kinv k n -> fcall_run c k o = (k', r) ->
  kinv k' (n + fails_open o r) /\ (forall w, fk_ws k w = Some None -> fk_ws k' w = Some None) /\ (forall w, fk_ws k w <> None -> fk_ws k' w <> None).
Proof.
  intros K E. destruct o as [e|e t|e|e| | |w d|w|w]; cbn [fcall_run] in E.
  - assert (S : exists s, k' = set_fs k s /\ hsub (fk_fs k) s).
    { unfold fk_mkdir in E. destruct (should_ignore _); [injection E as <- <-; exists (fk_fs k); split; [destruct k; reflexivity|apply hsub_refl]|].
      destruct (dest_path _ _ _) as [dst|x| |]; try (injection E as <- <-; exists (fk_fs k); split; [destruct k; reflexivity|apply hsub_refl]).
      destruct (os_lstat _ dst) as [s1 st] eqn:E1. apply os_lstat_hand, hsub_eq in E1.
      assert (T : forall s, hsub (fk_fs k) s -> (let '(s0, er) := os_mkdir_all s dst dir_mode in (set_fs k s0, option_map with_stack er)) = (k', r) -> exists s, k' = set_fs k s /\ hsub (fk_fs k) s).
      { intros s Hs. destruct (os_mkdir_all s dst dir_mode) as [s2 r2] eqn:E2. apply os_mkdir_all_hand, hsub_eq in E2. intros X. injection X as <- <-. exists s2. split; [reflexivity|eapply hsub_trans; eassumption]. }
      destruct st as [nd| | |]; try (apply (T _ E1 E)). destruct (is_dir nd); [injection E as <- <-; eauto|].
      destruct (os_remove s1 dst) as [s2 r2] eqn:E2. apply remove_hand, hsub_eq in E2. pose proof (hsub_trans _ _ _ E1 E2) as H2.
      destruct r2 as [y|]; [injection E as <- <-; eauto|]. exact (T _ H2 E). }
    destruct S as (s & -> & Hs). cbn [fails_open]. rewrite Nat.add_0_r. splits; auto. apply kinv_fs; assumption.
  - assert (S : exists s, k' = set_fs k s /\ hsub (fk_fs k) s).
    { unfold fk_symlink in E. destruct (should_ignore _); [injection E as <- <-; exists (fk_fs k); split; [destruct k; reflexivity|apply hsub_refl]|].
      destruct (dest_path _ _ _) as [dst|x| |]; try (injection E as <- <-; exists (fk_fs k); split; [destruct k; reflexivity|apply hsub_refl]).
      assert (T : (let '(s, er) := os_remove_all (fk_fs k) dst in
               match er with
               | Some x => (set_fs k s, Some (with_stack x))
               | None =>
                   let '(s, er) := os_mkdir_all s (path_dir dst) lucky_mode in
                   match er with
                   | Some x => (set_fs k s, Some (with_stack x))
                   | None =>
                       let '(s, er) := os_symlink s t dst in
                       (set_fs k s, option_map with_stack er)
                   end
               end) = (k', r) -> exists s, k' = set_fs k s /\ hsub (fk_fs k) s).
      { clear E. intros E. destruct (os_remove_all (fk_fs k) dst) as [s1 r1] eqn:E1. apply remove_all_hand, hsub_eq in E1.
        destruct r1 as [y|]; [injection E as <- <-; eauto|].
        destruct (os_mkdir_all s1 _ lucky_mode) as [s2 r2] eqn:E2. apply os_mkdir_all_hand, hsub_eq in E2. pose proof (hsub_trans _ _ _ E1 E2) as H2.
        destruct r2 as [y|]; [injection E as <- <-; eauto|].
        destruct (os_symlink s2 t dst) as [s3 r3] eqn:E3. apply symlink_hand, hsub_eq in E3. pose proof (hsub_trans _ _ _ H2 E3) as H3.
        injection E as <- <-. eauto. }
      destruct (check_link _ _ _ _) as [u|x| |]; try (apply T; exact E).
      injection E as <- <-; exists (fk_fs k); split; [destruct k; reflexivity|apply hsub_refl]. }
    destruct S as (s & -> & Hs). cbn [fails_open]. rewrite Nat.add_0_r. splits; auto. apply kinv_fs; assumption.
  - destruct (fk_getw c k e) as [k1 r1] eqn:E1. injection E as <- <-. destruct (kinv_getw _ _ _ _ _ _ K E1) as (H1 & H2 & H3 & H4 & H5 & H6).
    splits; auto. intros w Hw. destruct r1 as [[v|]|x| |].
    + destruct (H4 v eq_refl) as (_ & _ & _ & _ & H7). rewrite (H7 w Hw). discriminate.
    + rewrite H5 by reflexivity. exact Hw.
    + destruct (H6 x eq_refl) as [-> _]. exact Hw.
    + unfold fk_getw in E1. destruct (should_ignore _); [discriminate|]. destruct (create_file c (fk_fs k) e) as [s1 r1]; destruct r1; [|discriminate|injection E1 as <-; exact Hw|discriminate].
      destruct (if 0 <? en_woff e then f_seek s1 a (en_woff e) else (s1, None)) as [s2 [y|]]; [discriminate|]. destruct (f_truncate s2 a (en_woff e)) as [s3 [y|]]; [discriminate|].
      destruct (fk_close (set_fs k s3)); discriminate.
    + unfold fk_getw in E1. destruct (should_ignore _); [discriminate|]. destruct (create_file c (fk_fs k) e) as [s1 r1]; destruct r1; [|discriminate|discriminate|injection E1 as <-; exact Hw].
      destruct (if 0 <? en_woff e then f_seek s1 a (en_woff e) else (s1, None)) as [s2 [y|]]; [discriminate|]. destruct (f_truncate s2 a (en_woff e)) as [s3 [y|]]; [discriminate|].
      destruct (fk_close (set_fs k s3)); discriminate.
  - destruct (kinv_prealloc _ _ _ _ _ _ K E) as (H1 & H2 & H3). rewrite H2. splits; auto.
  - destruct (kinv_nuke _ _ _ _ _ K E) as (H1 & H2 & H3 & H4 & H5). cbn [fails_open]. rewrite Nat.add_0_r. splits; auto.
    + intros w Hw. apply H5. congruence.
    + intros w Hw. rewrite H5 by exact Hw. discriminate.
  - destruct (kinv_close _ _ _ _ K E) as (H1 & H2 & H3 & H4 & H5). cbn [fails_open]. rewrite Nat.add_0_r. splits; auto.
    + intros w Hw. apply H5. congruence.
    + intros w Hw. rewrite H5 by exact Hw. discriminate.
  - unfold fk_write in E. cbn [fails_open]. rewrite Nat.add_0_r. destruct w as [w|]; [|injection E as <- <-; splits; auto].
    destruct (fk_ws k w) as [[h|]|]; try (injection E as <- <-; splits; auto).
    destruct (f_write (fk_fs k) h d) as [s1 [n1 r1]] eqn:E1. apply write_hsub in E1. injection E as <- <-. splits; auto. apply kinv_fs; assumption.
  - unfold fk_sync in E. cbn [fails_open]. rewrite Nat.add_0_r. destruct w as [w|]; [|injection E as <- <-; splits; auto].
    destruct (fk_ws k w) as [[h|]|]; try (injection E as <- <-; splits; auto).
    destruct (f_sync (fk_fs k) h) as [s1 r1] eqn:E1. apply sync_hsub in E1. injection E as <- <-. splits; auto. apply kinv_fs; assumption.
  - cbn [fails_open]. rewrite Nat.add_0_r. destruct w as [w|]; [|injection E as <- <-; splits; auto].
    cbn [fk_closew] in E. destruct (kinv_closew _ _ _ _ _ K E) as (H1 & H2 & H3 & H4 & H5 & H6 & H7). splits; auto.
    intros j Hj. destruct (Nat.eq_dec j w) as [->|Hne]; [rewrite H6 by exact Hj; discriminate|rewrite H7 by exact Hne; exact Hj].
Qed.
Fixpoint failed_opens (c : fcfg) (k : fsink) (os : list fcall) : nat :=
  match os with [] => 0 | o :: os => fails_open o (snd (fcall_run c k o)) + failed_opens c (fst (fcall_run c k o)) os end.
Lemma kinv_calls c os : forall k n, kinv k n -> kinv (fcalls_run c k os) (n + failed_opens c k os) /\
  (forall w, fk_ws k w = Some None -> fk_ws (fcalls_run c k os) w = Some None) /\ (forall w, fk_ws k w <> None -> fk_ws (fcalls_run c k os) w <> None).
Proof.
  induction os as [|o os IH]; intros k n K; cbn [fcalls_run failed_opens]; [rewrite Nat.add_0_r; auto|].
  destruct (fcall_run c k o) as [k1 r1] eqn:E. destruct (kinv_call _ _ _ _ _ _ K E) as (K1 & D1 & D2). cbn [fst snd].
  destruct (IH k1 _ K1) as (K2 & D3 & D4). rewrite Nat.add_assoc. splits; auto.
Qed.

End Writers.

(** ** Nuke *)
Lemma resolve_missing s base b n : (forall q t, at_or_below q base -> f_tree s q <> Some (FLink t)) ->
  forall cs cur, tidy cs -> Forall (fun c => c <> []) cs -> at_or_below (walk cur cs) base ->
  resolve s b n cur cs = Err ENoEnt -> exists q, at_or_below q (walk cur cs) /\ f_tree s q = None.
Proof.
  intros Habove. induction cs as [|c cs IHc]; intros cur Ht Hne Hw; [rewrite resolve_nil; discriminate|].
  destruct (tidy_tail c cs Ht) as [Ht' Hnd]; inversion Hne as [|? ? Hc Hcs]; subst.
  rewrite resolve_cons; destruct (bytes_eqb c dot) eqn:E1.
  { apply bytes_eqb_eq in E1; subst c; rewrite walk_cons_dot in *; apply IHc; auto. }
  destruct (bytes_eqb c dotdot) eqn:E2.
  { apply bytes_eqb_eq in E2; subst c; rewrite walk_cons_dotdot in *; apply IHc; auto. }
  apply bytes_eqb_neq in E1, E2; specialize (Hnd E1 E2); rewrite walk_cons_name in * by assumption.
  assert (Hwk : at_or_below (cur ++ [c]) (walk (cur ++ [c]) cs)) by (apply walk_nodd; exact Hnd).
  assert (Hl : at_or_below (cur ++ [c]) base) by (eapply below_trans; eassumption).
  destruct (f_tree s (cur ++ [c])) as [[m|t|i]|] eqn:Et.
  - apply IHc; auto.
  - exfalso. exact (Habove _ _ Hl Et).
  - destruct cs; discriminate.
  - intros _. eauto.
Qed.

Lemma nuke_spec c k k' r : is_abs (fc_wd c) = true -> f_wd (fk_fs k) = locate [] (fc_wd c) -> tidy (pcomps (fc_dir c)) -> fc_dir c <> [] ->
  (forall q t, at_or_below q (fbase c) -> f_tree (fk_fs k) q <> Some (FLink t)) ->
  (forall l q, f_tree (fk_fs k) l <> None -> at_or_below q l -> f_tree (fk_fs k) q <> None) ->
  fk_nuke c k = (k', r) ->
  (forall l, ~ at_or_below (fbase c) l -> look (fk_fs k') l = look (fk_fs k) l) /\
  (r = None -> forall l, at_or_below (fbase c) l -> look (fk_fs k') l = None).
Proof.
  intros Hwd Hf Hdir Hd Habove Htree. unfold fk_nuke. destruct (fk_close k) as [k1 r1] eqn:E1.
  assert (H1 : f_tree (fk_fs k1) = f_tree (fk_fs k) /\ f_ino (fk_fs k1) = f_ino (fk_fs k) /\ f_wd (fk_fs k1) = f_wd (fk_fs k)).
  { unfold fk_close in E1. destruct (fk_writer k) as [w|]; [|injection E1 as <- <-; auto].
    destruct (fk_closew_ k w) as [k2 r2] eqn:E2. injection E1 as <- <-. cbn [fk_fs]. unfold fk_closew_ in E2.
    destruct (fk_ws k w) as [[h|]|]; [|injection E2 as <- <-; auto..].
    destruct (f_close (fk_fs k) h) as [s3 r3] eqn:E3. injection E2 as <- <-. cbn [fk_fs].
    unfold f_close, on_file, tick in E3. destruct (f_hand (fk_fs k) h); injection E3 as <- <-; auto. }
  destruct H1 as (T1 & I1 & W1).
  destruct r1 as [x|]; [intros E; injection E as <- <-; split; [intros l _; unfold look; rewrite T1, I1; reflexivity|discriminate]|].
  destruct (os_remove_all (fk_fs k1) (fc_dir c)) as [s2 r2] eqn:E2. intros E. injection E as <- <-. cbn [set_fs fk_fs].
  unfold os_remove_all in E2. destruct (fc_dir c) as [|b0 d0] eqn:Ed; [congruence|]. rewrite <- Ed in *. clear b0 d0 Ed.
  assert (Same : forall s, f_tree s = f_tree (fk_fs k1) -> f_ino s = f_ino (fk_fs k1) -> forall l, look s l = look (fk_fs k) l).
  { intros s A B l. unfold look. rewrite A, B, T1, I1. reflexivity. }
  destruct (ends_with_dot (fc_dir c)); [injection E2 as <- <-; split; [intros l _; apply Same; reflexivity|discriminate]|].
  unfold tick in E2. set (s1 := with_orc _ _) in *.
  assert (Hb : walk (if is_abs (fc_dir c) then [] else f_wd s1) (pcomps (fc_dir c)) = fbase c).
  { rewrite walk_pcomps. unfold fbase, base_loc. unfold locate at 1. change (f_wd s1) with (f_wd (fk_fs k1)). rewrite W1, Hf. reflexivity. }
  assert (Ha1 : forall q t, at_or_below q (fbase c) -> f_tree s1 q <> Some (FLink t)) by (intros q t; change (f_tree s1) with (f_tree (fk_fs k1)); rewrite T1; apply Habove).
  assert (Hne : Forall (fun c => c <> []) (pcomps (fc_dir c))) by (eapply Forall_impl; [|apply pcomps_nonempty]; intros a [Ha _]; exact Ha).
  destruct (resolve_path s1 false (fc_dir c)) as [l|e| |] eqn:Er.
  - unfold resolve_path in Er. eapply (resolve_up (fbase c) s1 Ha1) in Er; [|exact Hdir|exact Hne|]; [|exact (eq_ind _ (fun x => at_or_below x (fbase c)) (below_refl _) _ (eq_sym Hb))].
    match type of Er with context [walk ?a ?b] => change (walk a b) with (walk (if is_abs (fc_dir c) then [] else f_wd s1) (pcomps (fc_dir c))) in Er end. rewrite Hb in Er. subst l.
    assert (P : forall keep l, ~ at_or_below (fbase c) l -> look (prune s1 (fbase c) keep) l = look (fk_fs k) l).
    { intros keep l Hl. rewrite <- (Same s1 eq_refl eq_refl l). unfold look. cbn [prune with_tree f_tree f_ino].
      destruct (loc_pre (fbase c) l) eqn:Ep; [apply loc_pre_spec in Ep; contradiction|reflexivity]. }
    match type of E2 with match ?x with _ => _ end = _ => destruct x end; [injection E2 as <- <-; split; [apply P|discriminate]|].
    match type of E2 with (if ?x then _ else _) = _ => destruct x end; injection E2 as <- <-; (split; [apply P|]); [discriminate|].
    intros _ l Hl. unfold look. cbn [prune with_tree f_tree]. apply loc_pre_spec in Hl. rewrite Hl. reflexivity.
  - match type of E2 with match ?x with _ => _ end = _ => destruct x end; [injection E2 as <- <-; split; [intros l _; apply Same; reflexivity|discriminate]|].
    injection E2 as <- <-. split; [intros l _; apply Same; reflexivity|]. intros He. destruct e; try discriminate He.
    unfold resolve_path in Er. eapply (resolve_missing s1 (fbase c) _ _ Ha1) in Er; [|exact Hdir|exact Hne|]; [|exact (eq_ind _ (fun x => at_or_below x (fbase c)) (below_refl _) _ (eq_sym Hb))].
    match type of Er with context [walk ?a ?b] => change (walk a b) with (walk (if is_abs (fc_dir c) then [] else f_wd s1) (pcomps (fc_dir c))) in Er end. rewrite Hb in Er.
    destruct Er as (q & Hq & Hn). intros l Hl. rewrite (Same s1 eq_refl eq_refl l). unfold look.
    destruct (f_tree (fk_fs k) l) as [nd|] eqn:En; [|reflexivity]. exfalso. apply (Htree l q); [congruence|eapply below_trans; eassumption|].
    rewrite <- T1. exact Hn.
  - injection E2 as <- <-; split; [intros l _; apply Same; reflexivity|discriminate].
  - injection E2 as <- <-; split; [intros l _; apply Same; reflexivity|discriminate].
Qed.
