(** Parents_proofs.v -- which directories FolderSink's calls bring into being,
    and with which mode. *)
From Verif Require Import Base Base_proofs Path Source Sink FS FS_proofs FolderSink FSteps_proofs FolderSpec.

(** every directory of s' is one of s, or was made with mode M (less the umask) *)
Definition newdirs (M : Z) (s s' : fsys) : Prop :=
  f_umask s' = f_umask s /\
  forall l m, f_tree s' l = Some (FDir m) -> f_tree s l = Some (FDir m) \/ m = Z.land M (Z.lnot (f_umask s)).

Section New.
  Context (M : Z).
  Notation nd := (newdirs M).

  Lemma nd_eq s s' : f_umask s' = f_umask s -> f_tree s' = f_tree s -> nd s s'.
  Proof. intros H1 H2. split; [exact H1|]. rewrite H2. auto. Qed.
  Lemma nd_refl s : nd s s. Proof. apply nd_eq; reflexivity. Qed.
  Lemma nd_trans a b c : nd a b -> nd b c -> nd a c.
  Proof.
    intros [A1 A2] [B1 B2]. split; [congruence|]. intros l m H. destruct (B2 l m H) as [H1|H1]; [auto|]. right. rewrite A1 in H1. exact H1.
  Qed.
  Lemma nd_log s p : nd s (logged s p). Proof. apply nd_eq; reflexivity. Qed.
  Lemma nd_tick s s' f : tick s = (s', f) -> nd s s'.
  Proof. unfold tick. intros E. injection E as <- <-. apply nd_eq; reflexivity. Qed.

  Lemma nd_stat s b p s' r : sys_stat s b p = (s', r) -> nd s s'.
  Proof.
    unfold sys_stat. destruct (tick s) as [s1 fl] eqn:Ht. apply nd_tick in Ht. intros E.
    enough (s' = s1) by (subst; exact Ht). destruct fl; [congruence|].
    destruct (resolve_path s1 b p); try congruence. destruct (f_tree s1 a); congruence.
  Qed.
  Lemma nd_lstat s p s' r : os_lstat s p = (s', r) -> nd s s'.
  Proof. intros E. eapply nd_trans; [apply nd_log|]. eapply nd_stat. exact E. Qed.

  Lemma nd_mkdir s p s' r : sys_mkdir s p M = (s', r) -> nd s s'.
  Proof.
    unfold sys_mkdir. destruct (tick s) as [s1 fl] eqn:Ht. apply nd_tick in Ht. intros E.
    destruct fl; [injection E as <- <-; exact Ht|].
    destruct (resolve_path s1 false p) as [l| | |]; try (injection E as <- <-; exact Ht).
    destruct (f_tree s1 l); injection E as <- <-; [exact Ht|].
    eapply nd_trans; [exact Ht|]. split; [reflexivity|]. intros q m. cbn.
    destruct (loc_eqb q l); [|auto]. intros E. injection E as <-. auto.
  Qed.
  Lemma nd_mkdir_tail p s s' r :
    (let '(s, e) := sys_mkdir s p M in
     match e with
     | None => (s, None)
     | Some _ => let '(s, r) := sys_stat s false p in
                 match r with Ok n => if is_dir n then (s, None) else (s, e) | _ => (s, e) end
     end) = (s', r) -> nd s s'.
  Proof.
    destruct (sys_mkdir s p M) as [s1 r1] eqn:E1. apply nd_mkdir in E1.
    destruct r1; [|intros E; injection E as <- <-; exact E1].
    destruct (sys_stat s1 false p) as [s2 r2] eqn:E2. apply nd_stat in E2. pose proof (nd_trans _ _ _ E1 E2) as H2.
    destruct r2 as [n| | |]; [destruct (is_dir n)| | |]; intros E; injection E as <- <-; exact H2.
  Qed.
  Lemma nd_mkdir_all_ rcs : forall s s' r, mkdir_all s rcs M = (s', r) -> nd s s'.
  Proof.
    induction rcs as [|c rcs IH]; intros s s' r E; rewrite mkdir_all_unfold in E; cbv zeta in E.
    all: match type of E with context [sys_stat ?s0 true ?y] => destruct (sys_stat s0 true y) as [s1 r1] eqn:E1 end; apply nd_stat in E1.
    - destruct r1 as [n| | |]; [destruct (is_dir n); injection E as <- <-; exact E1| | |];
      (eapply nd_trans; [exact E1|eapply nd_mkdir_tail; exact E]).
    - destruct r1 as [n| | |]; [destruct (is_dir n); injection E as <- <-; exact E1| | |].
      all: match type of E with context [match ?t with (_, _) => _ end] => destruct t as [s2 r2] eqn:E2 end.
      all: assert (H2 : nd s s2) by (destruct rcs as [|c' rcs']; [injection E2 as <- <-; exact E1|eapply nd_trans; [exact E1|eapply IH; exact E2]]).
      all: destruct r2; [injection E as <- <-; exact H2|].
      all: eapply nd_trans; [exact H2|eapply nd_mkdir_tail; exact E].
  Qed.
  Lemma nd_mkdir_all s p s' r : os_mkdir_all s p M = (s', r) -> nd s s'.
  Proof. intros E. eapply nd_trans; [apply (nd_log s p)|]. eapply nd_mkdir_all_. exact E. Qed.

  (** removals, and anything that puts something else than a directory *)
  Lemma nd_fewer s s' : f_umask s' = f_umask s -> (forall l, f_tree s' l = f_tree s l \/ is_dir (match f_tree s' l with Some n => n | None => FFile 0 end) = false) -> nd s s'.
  Proof.
    intros Hu H. split; [exact Hu|]. intros l m E. destruct (H l) as [E'|E']; [left; congruence|]. rewrite E in E'. discriminate.
  Qed.
  Lemma nd_prune s l k : nd s (prune s l k).
  Proof. apply nd_fewer; [reflexivity|]. intros q. cbn. destruct (loc_pre l q && negb (k q)); auto. Qed.
  Lemma nd_set s l n : is_dir (match n with Some n => n | None => FFile 0 end) = false -> nd s (set_node s l n).
  Proof. intros H. apply nd_fewer; [reflexivity|]. intros q. cbn. destruct (loc_eqb q l); auto. Qed.

  Lemma nd_remove s p s' r : os_remove s p = (s', r) -> nd s s'.
  Proof.
    unfold os_remove. destruct (tick (logged s p)) as [s1 fl] eqn:Ht. apply nd_tick in Ht.
    pose proof (nd_trans _ _ _ (nd_log s p) Ht) as H1. intros E. destruct fl; [injection E as <- <-; exact H1|].
    destruct (resolve_path s1 false p) as [l| | |]; try (injection E as <- <-; exact H1).
    destruct (f_tree s1 l) as [[| |]|]; injection E as <- <-; try exact H1; (eapply nd_trans; [exact H1|apply nd_set; reflexivity]).
  Qed.
  Lemma nd_remove_all s p s' r : os_remove_all s p = (s', r) -> nd s s'.
  Proof.
    unfold os_remove_all. cbv zeta. destruct p as [|a p]; [intros E; injection E as <- <-; apply nd_log|].
    destruct (ends_with_dot (a :: p)); [intros E; injection E as <- <-; apply nd_log|].
    destruct (tick (logged s (a :: p))) as [s1 fl] eqn:Ht. apply nd_tick in Ht.
    pose proof (nd_trans _ _ _ (nd_log s (a :: p)) Ht) as H1. clear Ht.
    destruct (resolve_path s1 false (a :: p)) as [l| | |].
    - destruct fl; [intros E; injection E as <- <-; eapply nd_trans; [exact H1|apply nd_prune]|].
      destruct (_ || _); intros E; injection E as <- <-; (eapply nd_trans; [exact H1|apply nd_prune]).
    - destruct fl; intros E; injection E as <- <-; exact H1.
    - intros E; injection E as <- <-; exact H1.
    - intros E; injection E as <- <-; exact H1.
  Qed.
  Lemma nd_symlink s t p s' r : os_symlink s t p = (s', r) -> nd s s'.
  Proof.
    unfold os_symlink. destruct (tick (logged s p)) as [s1 fl] eqn:Ht. apply nd_tick in Ht.
    pose proof (nd_trans _ _ _ (nd_log s p) Ht) as H1. intros E. destruct fl; [injection E as <- <-; exact H1|].
    destruct (resolve_path s1 false p) as [l| | |]; try (injection E as <- <-; exact H1).
    destruct (f_tree s1 l); injection E as <- <-; [exact H1|]. eapply nd_trans; [exact H1|apply nd_set; reflexivity].
  Qed.
  Lemma nd_open s p mode s' r : os_open_create s p mode = (s', r) -> nd s s'.
  Proof.
    unfold os_open_create. destruct (tick (logged s p)) as [s1 fl] eqn:Ht. apply nd_tick in Ht.
    pose proof (nd_trans _ _ _ (nd_log s p) Ht) as H1. intros E. destruct fl; [injection E as <- <-; exact H1|].
    destruct (resolve_path s1 true p) as [l| | |]; try (injection E as <- <-; exact H1).
    cbv zeta in E. destruct (f_tree s1 l) as [[| |i]|]; injection E as <- <-; try exact H1.
    eapply nd_trans; [exact H1|]. apply nd_fewer; [reflexivity|]. intros q. cbn. destruct (loc_eqb q l); auto.
  Qed.

  (** calls on open files *)
  Lemma nd_on_file {A} s h (bad : gerr -> A) k s' r :
    (forall s x fl s' r, k s x fl = (s', r) -> f_umask s' = f_umask s /\ f_tree s' = f_tree s) ->
    on_file s h bad k = (s', r) -> nd s s'.
  Proof.
    intros Hk. unfold on_file. destruct (f_hand s h) as [x|]; [|intros E; injection E as <- <-; apply nd_refl].
    destruct (tick s) as [s1 fl] eqn:Ht. apply nd_tick in Ht. intros E. apply Hk in E. destruct E as [E1 E2].
    eapply nd_trans; [exact Ht|apply nd_eq; assumption].
  Qed.
  Ltac file := apply nd_on_file; intros s0 x fl s1 r0 E;
    repeat match type of E with context [match ?t with _ => _ end] => destruct t end; injection E as <- <-; split; reflexivity.
  Lemma nd_chmod s h m s' r : f_chmod s h m = (s', r) -> nd s s'. Proof. unfold f_chmod. cbv zeta. file. Qed.
  Lemma nd_seek s h m s' r : f_seek s h m = (s', r) -> nd s s'. Proof. unfold f_seek. cbv zeta. file. Qed.
  Lemma nd_truncate s h m s' r : f_truncate s h m = (s', r) -> nd s s'. Proof. unfold f_truncate. cbv zeta. file. Qed.
  Lemma nd_write s h m s' r : f_write s h m = (s', r) -> nd s s'.
  Proof.
    unfold f_write. apply nd_on_file. intros s0 x fl s1 r0 E. cbv zeta in E. injection E as <- <-.
    destruct (match fl with Some f => firstn (fl_n f) m | None => m end); split; reflexivity.
  Qed.
  Lemma nd_sync s h s' r : f_sync s h = (s', r) -> nd s s'. Proof. unfold f_sync. cbv zeta. file. Qed.
  Lemma nd_fclose s h s' r : f_close s h = (s', r) -> nd s s'.
  Proof. unfold f_close. apply nd_on_file. intros s0 x fl s1 r0 E. injection E as <- <-. split; reflexivity. Qed.
  Lemma nd_ox s h n s' r : ox_preallocate s h n = (s', r) -> nd s s'.
  Proof. unfold ox_preallocate. apply nd_on_file. intros s0 x fl s1 r0 E. cbv zeta in E. injection E as <- <-. split; reflexivity. Qed.
  Lemma nd_legacy s h n s' r : legacy_preallocate s h n = (s', r) -> nd s s'.
  Proof.
    unfold legacy_preallocate. cbv zeta. destruct (f_hand s h) as [x|]; [|intros E; injection E as <- <-; apply nd_refl].
    destruct (f_seek s h _) as [s1 r1] eqn:E1. apply nd_seek in E1. destruct r1; [intros E; injection E as <- <-; exact E1|].
    destruct (0 <? _); [|intros E; injection E as <- <-; exact E1].
    destruct (f_write s1 h _) as [s2 [n2 r2]] eqn:E2. apply nd_write in E2. intros E. injection E as <- <-. eapply nd_trans; eassumption.
  Qed.

  Lemma nd_closew k w k' r : fk_closew_ k w = (k', r) -> nd (fk_fs k) (fk_fs k').
  Proof.
    unfold fk_closew_. destruct (fk_ws k w) as [[h|]|]; try (intros E; injection E as <- <-; apply nd_refl).
    destruct (f_close (fk_fs k) h) as [s r1] eqn:E1. apply nd_fclose in E1. intros E. injection E as <- <-. exact E1.
  Qed.
  Lemma nd_close k k' r : fk_close k = (k', r) -> nd (fk_fs k) (fk_fs k').
  Proof.
    unfold fk_close. destruct (fk_writer k) as [w|]; [|intros E; injection E as <- <-; apply nd_refl].
    destruct (fk_closew_ k w) as [k1 r1] eqn:E1. apply nd_closew in E1. intros E. injection E as <- <-. exact E1.
  Qed.
  Lemma nd_fwrite k w d k' r : fk_write k w d = (k', r) -> nd (fk_fs k) (fk_fs k').
  Proof.
    unfold fk_write. destruct w as [w|]; [|intros E; injection E as <- <-; apply nd_refl].
    destruct (fk_ws k w) as [[h|]|]; try (intros E; injection E as <- <-; apply nd_refl).
    destruct (f_write (fk_fs k) h d) as [s [n r1]] eqn:E1. apply nd_write in E1. intros E. injection E as <- <-. exact E1.
  Qed.
  Lemma nd_fsync k w k' r : fk_sync k w = (k', r) -> nd (fk_fs k) (fk_fs k').
  Proof.
    unfold fk_sync. destruct w as [w|]; [|intros E; injection E as <- <-; apply nd_refl].
    destruct (fk_ws k w) as [[h|]|]; try (intros E; injection E as <- <-; apply nd_refl).
    destruct (f_sync (fk_fs k) h) as [s r1] eqn:E1. apply nd_sync in E1. intros E. injection E as <- <-. exact E1.
  Qed.
  Lemma nd_nuke c k k' r : fk_nuke c k = (k', r) -> nd (fk_fs k) (fk_fs k').
  Proof.
    unfold fk_nuke. destruct (fk_close k) as [k1 r1] eqn:E1. apply nd_close in E1.
    destruct r1; [intros E; injection E as <- <-; exact E1|].
    destruct (os_remove_all (fk_fs k1) (fc_dir c)) as [s r2] eqn:E2. apply nd_remove_all in E2.
    intros E. injection E as <- <-. eapply nd_trans; [exact E1|exact E2].
  Qed.
End New.

Lemma nd_fmkdir c k e k' r : fk_mkdir c k e = (k', r) -> newdirs dir_mode (fk_fs k) (fk_fs k').
Proof.
  unfold fk_mkdir. destruct (should_ignore (en_path e)); [intros E; injection E as <- <-; apply nd_refl|].
  destruct (dest_path _ _ _) as [dst| | |]; try (intros E; injection E as <- <-; apply nd_refl).
  destruct (os_lstat (fk_fs k) dst) as [s1 st] eqn:E1. apply (nd_lstat dir_mode) in E1.
  assert (Hm : forall s k' r, newdirs dir_mode (fk_fs k) s -> (let '(s, er) := os_mkdir_all s dst dir_mode in (set_fs k s, option_map with_stack er)) = (k', r) -> newdirs dir_mode (fk_fs k) (fk_fs k')).
  { intros s k0 r0 H. destruct (os_mkdir_all s dst dir_mode) as [s2 r2] eqn:E2. apply nd_mkdir_all in E2. intros E. injection E as <- <-. eapply nd_trans; eassumption. }
  destruct st as [n| | |]; [|apply Hm; exact E1..].
  destruct (is_dir n); [intros E; injection E as <- <-; exact E1|].
  destruct (os_remove s1 dst) as [s2 r2] eqn:E2. apply (nd_remove dir_mode) in E2. pose proof (nd_trans _ _ _ _ E1 E2) as H2.
  destruct r2; [intros E; injection E as <- <-; exact H2|]. apply Hm. exact H2.
Qed.

Lemma nd_create c s e s' r : create_file c s e = (s', r) -> newdirs lucky_mode s s'.
Proof.
  unfold create_file. destruct (dest_path _ _ _) as [dst| | |]; try (intros E; injection E as <- <-; apply nd_refl).
  destruct (os_mkdir_all s (path_dir dst) lucky_mode) as [s1 r1] eqn:E1. apply nd_mkdir_all in E1.
  destruct r1; [intros E; injection E as <- <-; exact E1|].
  destruct (os_lstat s1 dst) as [s2 st] eqn:E2. apply (nd_lstat lucky_mode) in E2. pose proof (nd_trans _ _ _ _ E1 E2) as H2.
  match goal with |- context [match st with Ok n => if is_link n then ?a else ?b | _ => _ end] =>
    destruct (match st with Ok n => if is_link n then a else b | _ => b end) as [s3 r3] eqn:E3 end.
  assert (H3 : newdirs lucky_mode s s3).
  { destruct st as [n| | |]; [destruct (is_link n)|..]; try (injection E3 as <- <-; exact H2).
    apply (nd_remove_all lucky_mode) in E3. eapply nd_trans; eassumption. }
  clear E3. destruct r3; [intros E; injection E as <- <-; exact H3|]. cbv zeta.
  destruct (os_open_create s3 dst _) as [s4 f] eqn:E4. apply (nd_open lucky_mode) in E4. pose proof (nd_trans _ _ _ _ H3 E4) as H4.
  destruct f as [h| | |]; try (intros E; injection E as <- <-; exact H4).
  destruct st as [n| | |]; try (intros E; injection E as <- <-; exact H4).
  destruct (f_chmod s4 h _) as [s5 r5] eqn:E5. apply (nd_chmod lucky_mode) in E5. pose proof (nd_trans _ _ _ _ H4 E5) as H5.
  destruct r5; intros E; injection E as <- <-; exact H5.
Qed.

Lemma nd_getw c k e k' r : fk_getw c k e = (k', r) -> newdirs lucky_mode (fk_fs k) (fk_fs k').
Proof.
  unfold fk_getw. destruct (should_ignore (en_path e)); [intros E; injection E as <- <-; apply nd_refl|].
  destruct (create_file c (fk_fs k) e) as [s1 f] eqn:E1. apply nd_create in E1.
  destruct f as [h| | |]; try (intros E; injection E as <- <-; exact E1).
  match goal with |- context [if 0 <? en_woff e then ?a else ?b] => destruct (if 0 <? en_woff e then a else b) as [s2 r2] eqn:E2 end.
  assert (H2 : newdirs lucky_mode (fk_fs k) s2).
  { destruct (0 <? en_woff e); [|injection E2 as <- <-; exact E1]. apply (nd_seek lucky_mode) in E2. eapply nd_trans; eassumption. }
  destruct r2; [intros E; injection E as <- <-; exact H2|].
  destruct (f_truncate s2 h (en_woff e)) as [s3 r3] eqn:E3. apply (nd_truncate lucky_mode) in E3. pose proof (nd_trans _ _ _ _ H2 E3) as H3.
  destruct r3; [intros E; injection E as <- <-; exact H3|].
  destruct (fk_close (set_fs k s3)) as [k4 r4] eqn:E4. apply (nd_close lucky_mode) in E4. cbn [set_fs fk_fs] in E4.
  intros E. injection E as <- <-. eapply nd_trans; [exact H3|exact E4].
Qed.

Lemma nd_prealloc c k e k' r : fk_prealloc c k e = (k', r) -> newdirs lucky_mode (fk_fs k) (fk_fs k').
Proof.
  unfold fk_prealloc. destruct (should_ignore (en_path e)); [intros E; injection E as <- <-; apply nd_refl|].
  destruct (create_file c (fk_fs k) e) as [s1 f] eqn:E1. apply nd_create in E1.
  destruct f as [h| | |]; try (intros E; injection E as <- <-; exact E1).
  match goal with |- context [if 0 <? en_usize e then ?a else ?b] => destruct (if 0 <? en_usize e then a else b) as [s2 r2] eqn:E2 end.
  assert (H2 : newdirs lucky_mode (fk_fs k) s2).
  { destruct (0 <? en_usize e); [destruct (fc_legacy c)|].
    - apply (nd_legacy lucky_mode) in E2. eapply nd_trans; eassumption.
    - apply (nd_ox lucky_mode) in E2. eapply nd_trans; eassumption.
    - injection E2 as <- <-; exact E1. }
  destruct (f_close s2 h) as [s3 r3] eqn:E3. apply (nd_fclose lucky_mode) in E3.
  intros E. injection E as <- <-. eapply nd_trans; [exact H2|exact E3].
Qed.

Lemma nd_fsymlink c k e t k' r : fk_symlink c k e t = (k', r) -> newdirs lucky_mode (fk_fs k) (fk_fs k').
Proof.
  unfold fk_symlink. destruct (should_ignore (en_path e)); [intros E; injection E as <- <-; apply nd_refl|].
  destruct (dest_path _ _ _) as [dst| | |]; try (intros E; injection E as <- <-; apply nd_refl).
  assert (Hm : forall k' r, (let '(s, er) := os_remove_all (fk_fs k) dst in
               match er with
               | Some x => (set_fs k s, Some (with_stack x))
               | None =>
                   let '(s, er) := os_mkdir_all s (path_dir dst) lucky_mode in
                   match er with
                   | Some x => (set_fs k s, Some (with_stack x))
                   | None =>
                       let '(s, er) := os_symlink s t dst in
                       (set_fs k s, option_map with_stack er)
                   end
               end) = (k', r) -> newdirs lucky_mode (fk_fs k) (fk_fs k')).
  { intros k0 r0. destruct (os_remove_all (fk_fs k) dst) as [s1 r1] eqn:E1. apply (nd_remove_all lucky_mode) in E1.
    destruct r1; [intros E; injection E as <- <-; exact E1|].
    destruct (os_mkdir_all s1 (path_dir dst) lucky_mode) as [s2 r2] eqn:E2. apply nd_mkdir_all in E2. pose proof (nd_trans _ _ _ _ E1 E2) as H2.
    destruct r2; [intros E; injection E as <- <-; exact H2|].
    destruct (os_symlink s2 t dst) as [s3 r3] eqn:E3. apply (nd_symlink lucky_mode) in E3.
    intros E. injection E as <- <-. eapply nd_trans; [exact H2|exact E3]. }
  destruct (check_link _ _ _ _); [apply Hm|intros E; injection E as <- <-; apply nd_refl|apply Hm|apply Hm].
Qed.

Lemma nd_call c k o k' r : fcall_run c k o = (k', r) -> newdirs (match o with CMkdir _ => dir_mode | _ => lucky_mode end) (fk_fs k) (fk_fs k').
Proof.
  destruct o as [e|e t|e|e| | |w d|w|[w|]]; cbn [fcall_run].
  - apply nd_fmkdir.
  - apply nd_fsymlink.
  - destruct (fk_getw c k e) as [k1 r1] eqn:E1. intros E. injection E as <- <-. eapply nd_getw. exact E1.
  - apply nd_prealloc.
  - apply nd_nuke.
  - apply nd_close.
  - destruct (fk_write k w d) as [k1 [[n a] r1]] eqn:E1. intros E. injection E as <- <-. eapply nd_fwrite. exact E1.
  - apply nd_fsync.
  - apply nd_closew.
  - intros E. injection E as <- <-. apply nd_refl.
Qed.
