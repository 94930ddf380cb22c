(** Props_folder.v -- properties of FolderSink (C22-C33) *)
From Verif Require Import Base Base_proofs Path PathSpec Path_proofs Source Sink SinkSpec FS FS_proofs FolderSink FSteps_proofs FSLex_proofs FolderSpec Folder_proofs Confine_proofs FolderOps_proofs FolderMisc_proofs ExFolder.

(** The process has an absolute working directory; Directory is not the root. *)
Definition usable (c : fcfg) : Prop := is_abs (fc_wd c) = true /\ fbase c <> [].
(** The entry lies in Directory (or is Directory itself), and is not an ignored name. *)
Definition inside (c : fcfg) (e : entry) : Prop := at_or_below (fbase c) (eloc c e) /\ should_ignore (en_path e) = false.

Lemma usable_ex : usable ex_c. Proof. split; [reflexivity|discriminate]. Qed.
Lemma inside_dest c e : usable c -> inside c e -> dest_path (fc_wd c) (fc_dir c) (en_path e) = Ok (render (eloc c e)) /\ Forall normal (eloc c e) /\ eloc c e <> [].
Proof.
  intros [Hwd Hb] [Hin _]. destruct (dest_cases c Hwd Hb e) as [[E _]|[_ N]]; [|contradiction]. splits; auto; [apply eloc_normal|].
  intros E0. rewrite E0 in Hin. destruct Hin as [r Hr]. destruct (fbase c); [congruence|discriminate].
Qed.

(** ** C22 *)
(** An entry that lexically leaves Directory: ErrPathTraversal, and nothing has
    happened (not even a system call). *)
Theorem C22_escape_rejected c k o e : usable c -> call_entry o = Some e -> should_ignore (en_path e) = false ->
  ~ at_or_below (fbase c) (eloc c e) -> fcall_run c k o = (k, Some ETraversal).
Proof.
  intros [Hwd Hb] Ho Hi Hout. destruct (dest_cases c Hwd Hb e) as [[_ H]|[Hd _]]; [contradiction|].
  destruct o; try discriminate; injection Ho as ->; cbn [fcall_run].
  - unfold fk_mkdir. rewrite Hi, Hd. reflexivity.
  - unfold fk_symlink. rewrite Hi, Hd. reflexivity.
  - unfold fk_getw, create_file. rewrite Hi, Hd. cbn. destruct k; reflexivity.
  - unfold fk_prealloc, create_file. rewrite Hi, Hd. cbn. destruct k; reflexivity.
Qed.
(** An entry that does not is never answered with ErrPathTraversal (for a
    symlink: if its target is relative and does not leave Directory either). *)
Theorem C22_only_escapes_rejected c k o e : usable c -> os_errors (fk_fs k) -> call_entry o = Some e ->
  at_or_below (fbase c) (eloc c e) ->
  (forall t, o = CSymlink e t -> is_abs t = false /\ at_or_below (fbase c) (walk (removelast (eloc c e)) (split_slash t))) ->
  snd (fcall_run c k o) <> Some ETraversal.
Proof.
  intros [Hwd Hb] Ho Hc Hin Hl. destruct (dest_cases c Hwd Hb e) as [[Hd _]|[_ H]]; [|contradiction].
  destruct o; try discriminate; injection Hc as ->; cbn [fcall_run].
  - destruct (fk_mkdir c k e) as [k' r] eqn:E. exact (mkdir_call_notrav _ _ _ Hd _ _ _ E Ho).
  - destruct (fk_symlink c k e t) as [k' r] eqn:E. eapply (symlink_call_notrav _ _ _ Hd t); [|exact E|exact Ho].
    destruct (Hl t eq_refl) as [Ha Hw]. rewrite (check_link_spec _ _ _ _ Hwd Hb (eloc_normal c e)), Ha. apply at_or_belowb_spec in Hw. unfold fbase in Hw. rewrite Hw. reflexivity.
  - destruct (fk_getw c k e) as [k' r] eqn:E. pose proof (getw_call_notrav _ _ _ Hd _ _ _ E Ho). destruct r; cbn; congruence.
  - destruct (fk_prealloc c k e) as [k' r] eqn:E. exact (prealloc_call_notrav _ _ _ Hd _ _ _ E Ho).
Qed.
(** Every path handed to the operating system is Directory or lexically below
    it -- or Directory's parent, if the entry denotes Directory itself. *)
Theorem C22_paths_inside c k o e k' r : usable c -> call_entry o = Some e -> fcall_run c k o = (k', r) ->
  exists ps, f_log (fk_fs k') = ps ++ f_log (fk_fs k) /\
    Forall (fun p => exists q, p = render q /\ (at_or_below (fbase c) q \/ eloc c e = fbase c /\ q = removelast (fbase c))) ps.
Proof.
  intros Hu Hc E. assert (Hs : fk_fs k' = fk_fs k \/ inside c e /\ psteps (eloc c e) (fun _ => True) (fk_fs k) (fk_fs k')).
  { destruct (should_ignore (en_path e)) eqn:Hi.
    - left. destruct o; try discriminate; injection Hc as ->; cbn [fcall_run] in E; revert E.
      + unfold fk_mkdir. rewrite Hi. congruence.
      + unfold fk_symlink. rewrite Hi. congruence.
      + unfold fk_getw. rewrite Hi. congruence.
      + unfold fk_prealloc. rewrite Hi. congruence.
    - destruct (at_or_belowb (fbase c) (eloc c e)) eqn:Hin.
      + apply at_or_belowb_spec in Hin. right. assert (Hins : inside c e) by (split; assumption). split; [exact Hins|].
        destruct (inside_dest c e Hu Hins) as (Hd & Hn & _).
        destruct o; try discriminate; injection Hc as ->; cbn [fcall_run] in E.
        * eapply fk_mkdir_steps; eauto.
        * eapply fk_symlink_steps; eauto.
        * destruct (fk_getw c k e) as [k1 r1] eqn:E1. injection E as <- <-. eapply fk_getw_steps; eauto.
        * eapply fk_prealloc_steps; eauto.
      + left. rewrite (C22_escape_rejected c k o e Hu Hc Hi) in E; [congruence|]. intros X. apply at_or_belowb_spec in X. congruence. }
  destruct Hs as [->|[Hins Hs]]; [exists []; split; [reflexivity|constructor]|].
  set (ok := fun p => exists q, p = render q /\ (at_or_below (fbase c) q \/ eloc c e = fbase c /\ q = removelast (fbase c))).
  refine (ps_inv (eloc c e) (fun _ => True) (fun s => exists ps, f_log s = ps ++ f_log (fk_fs k) /\ Forall ok ps) _ _ _ Hs (ex_intro _ [] (conj eq_refl (Forall_nil _)))).
  intros a b Hab (ps & Hl & Hf). inversion Hab; subst; try (exists ps; split; assumption).
  - exists (p :: ps). split; [cbn; rewrite Hl; reflexivity|]. constructor; [|exact Hf]. destruct Hins as [Hb _]. destruct H as [-> | ->].
    + exists (eloc c e). auto.
    + exists (removelast (eloc c e)). split; [reflexivity|]. destruct (loc_dec (eloc c e) (fbase c)) as [->|Hne]; [right; auto|left].
      destruct Hb as [rest Hr]. rewrite Hr in *. destruct rest as [|x rest] using rev_ind; [rewrite app_nil_r in Hne; congruence|].
      rewrite app_assoc, removelast_last. exists rest. reflexivity.
  - exists ps. split; [congruence|exact Hf].
Qed.
Example C22_example : call_entry (CMkdir (edir "a/../../b")) = Some (edir "a/../../b") /\ should_ignore (s2b "a/../../b") = false /\
  at_or_belowb (fbase ex_c) (eloc ex_c (edir "a/../../b")) = false /\ at_or_belowb (fbase ex_c) (eloc ex_c (efile "a/../b" 420 0 0)) = true /\
  os_errors (fk_fs ex_k) /\
  snd (fcall_run ex_c ex_k (CGetWriter (efile "a/../b" 420 0 0))) = None /\
  f_log (fk_fs (fst (fcall_run ex_c ex_k (CGetWriter (efile "a/../b" 420 0 0))))) = [s2b "/out/b"; s2b "/out/b"; s2b "/out"].
Proof. splits; try (vm_compute; reflexivity). intros n f. discriminate. Qed.
(** Simplest corner case of the last clause: a file entry "." *)
Example C22_parent_touched : f_log (fk_fs (fst (fcall_run ex_c ex_k (CGetWriter (efile "." 420 0 0))))) = [s2b "/out"; s2b "/out"; s2b "/"].
Proof. vm_compute. reflexivity. Qed.

(** ** C23 *)
Theorem C23_confined_without_symlinks c k os : plain c k -> (forall e t, ~ In (CSymlink e t) os) ->
  outside_same (fbase c) (fk_fs k) (fk_fs (fcalls_run c k os)).
Proof.
  intros Hp Hs. apply (confined c k os (fun _ => False)); auto; [contradiction|].
  apply Forall_forall. intros o Ho. destruct o; cbn; auto. exfalso. exact (Hs _ _ Ho).
Qed.
Example C23_example : plain ex_c ex_k0 /\
  let k := fcalls_run ex_c ex_k0 [CMkdir (edir "../etc/x"); CGetWriter (efile "sub/../f" 420 0 2); CWrite (Some 0%nat) (s2b "NEW"); CNuke; CGetWriter (efile "a/b" 420 0 0)] in
  look (fk_fs k) (at_ ["out"; "a"; "b"]%string) = Some (SFile [] 420) /\ look (fk_fs k) (at_ ["out"; "f"]%string) = None /\
  look (fk_fs k) (at_ ["etc"; "x"]%string) = None.
Proof. split; [exact ex_k0_plain|]. vm_compute. auto. Qed.

(** ** C24: refuted *)
(** From an empty destination without symlinks: a directory d, a symlink
    d/l -> "..", a symlink d/l/m -> "..", and a file d/l/m/evil: each is
    accepted, and /evil, outside of /out, is created and written to. *)
Definition esc_k : fsink := ex_sink [ ([], FDir 493); (at_ ["out"]%string, FDir 493) ] [] ok_orc.
Definition esc_calls : list fcall :=
  [ CMkdir (edir "d"); CSymlink (elink "d/l") (s2b ".."); CSymlink (elink "d/l/m") (s2b "..");
    CGetWriter (efile "d/l/m/evil" 420 4 0); CWrite (Some 0%nat) (s2b "evil") ].
Theorem C24_symlink_escape_refuted : exists c k os l, plain c k /\ usable c /\ no_fault (fk_fs k) /\
  ~ at_or_below (fbase c) l /\ ~ at_or_below l (fbase c) /\ look (fk_fs k) l = None /\
  look (fk_fs (fcalls_run c k os)) l = Some (SFile (s2b "evil") 420).
Proof.
  exists ex_c, esc_k, esc_calls, (at_ ["evil"]%string). splits.
  - apply ex_plain; reflexivity.
  - exact usable_ex.
  - intros n. reflexivity.
  - intros H. apply at_or_belowb_spec in H. vm_compute in H. discriminate.
  - intros H. apply at_or_belowb_spec in H. vm_compute in H. discriminate.
  - reflexivity.
  - vm_compute. reflexivity.
Qed.
(** Restricted version: it holds if no symlink entry lies below another one or
    is Directory itself, and no target goes up after having gone down (as in
    "x/..").  *)
Theorem C24_confined_partial c k os : plain c k ->
  (forall e t, In (CSymlink e t) os -> should_ignore (en_path e) = true \/ eloc c e <> fbase c /\ no_dotdot_after_name (pcomps t)) ->
  (forall e t e' t', In (CSymlink e t) os -> In (CSymlink e' t') os -> at_or_below (eloc c e) (eloc c e') -> eloc c e = eloc c e') ->
  outside_same (fbase c) (fk_fs k) (fk_fs (fcalls_run c k os)).
Proof.
  intros Hp H1 H2. apply (confined c k os (fun l => exists e t, In (CSymlink e t) os /\ should_ignore (en_path e) = false /\ l = eloc c e)); auto.
  - intros a b (e & t & Hi & _ & ->) (e' & t' & Hi' & _ & ->). eauto.
  - intros (e & t & Hi & Hn & He). destruct (H1 e t Hi) as [H|[H _]]; [congruence|]. congruence.
  - apply Forall_forall. intros o Ho. destruct o as [|e t| | | | | | |]; cbn; auto.
    destruct (H1 e t Ho) as [H|[H H']]; [left; exact H|]. destruct (should_ignore (en_path e)) eqn:Hi; [left; reflexivity|right].
    split; [exists e, t; auto|exact H'].
Qed.
Example C24_example : let os := [CMkdir (edir "d"); CSymlink (elink "d/l") (s2b "../sub"); CGetWriter (efile "d/l/x" 420 0 1); CWrite (Some 0%nat) (s2b "yz")] in
  plain ex_c ex_k0 /\ eloc ex_c (elink "d/l") <> fbase ex_c /\ no_dotdot_after_name (pcomps (s2b "../sub")) /\
  look (fk_fs (fcalls_run ex_c ex_k0 os)) (at_ ["out"; "sub"; "x"]%string) = Some (SFile (s2b "xyz") 438).
Proof.
  cbv zeta. splits; [exact ex_k0_plain|vm_compute; discriminate| |vm_compute; reflexivity].
  exists [s2b ".."], [s2b "sub"]. splits; auto; constructor; auto. discriminate.
Qed.

(** ** C25 *)
Theorem C25_bad_target_rejected c k e t : usable c -> inside c e ->
  is_abs t = true \/ ~ at_or_below (fbase c) (walk (removelast (eloc c e)) (split_slash t)) ->
  fk_symlink c k e t = (k, Some ETraversal).
Proof.
  intros Hu Hi Ht. destruct (inside_dest c e Hu Hi) as (Hd & Hn & _). destruct Hu as [Hwd Hb], Hi as [Hin Hig].
  unfold fk_symlink. rewrite Hig, Hd, (check_link_spec _ _ _ _ Hwd Hb Hn).
  destruct (is_abs t) eqn:Ea; [reflexivity|]. destruct Ht as [Ht|Ht]; [discriminate|].
  destruct (at_or_belowb _ _) eqn:Eb; [|reflexivity]. exfalso. apply Ht. apply at_or_belowb_spec. exact Eb.
Qed.
(** An accepted one is there with exactly the given target, whatever was there
    before is gone (with all that was below), nothing else has changed. And a
    good one is accepted. *)
Theorem C25_symlink_created c k e t k' r : usable c -> inside c e -> approachable k (eloc c e) -> fk_symlink c k e t = (k', r) ->
  (forall q, ~ at_or_below (eloc c e) q -> look (fk_fs k') q = look (fk_fs k) q \/
     (at_or_below q (eloc c e) /\ look (fk_fs k) q = None /\ exists m, look (fk_fs k') q = Some (SDir m))) /\
  (r = None -> look (fk_fs k') (eloc c e) = Some (SLink t) /\
     forall q, at_or_below (eloc c e) q -> q <> eloc c e -> look (fk_fs k') q = None) /\
  (no_fault (fk_fs k) -> is_abs t = false -> at_or_below (fbase c) (walk (removelast (eloc c e)) (split_slash t)) -> r = None).
Proof.
  intros Hu Hi Ap E. destruct (inside_dest c e Hu Hi) as (Hd & Hn & Hne). destruct Hi as [Hin Hig].
  destruct (symlink_at c k e _ Hd Hn Hne Hig Ap t k' r E) as (H1 & H2 & H3 & _). splits; auto.
  intros Hc Ha Hw. apply H3; [exact Hc|]. destruct Hu as [Hwd Hb]. rewrite (check_link_spec _ _ _ _ Hwd Hb Hn), Ha.
  apply at_or_belowb_spec in Hw. unfold fbase in Hw. rewrite Hw. reflexivity.
Qed.
Example C25_example : usable ex_c /\ inside ex_c (elink "sub") /\ approachable ex_k (eloc ex_c (elink "sub")) /\
  look (fk_fs ex_k) (at_ ["out"; "sub"; "x"]%string) = Some (SFile (s2b "x") 420) /\
  let k := fst (fk_symlink ex_c ex_k (elink "sub") (s2b "f")) in
  look (fk_fs k) (at_ ["out"; "sub"; "x"]%string) = None /\ look (fk_fs k) (at_ ["out"; "sub"]%string) = Some (SLink (s2b "f")) /\
  snd (fk_symlink ex_c ex_k (elink "sub") (s2b "../etc")) = Some ETraversal /\ snd (fk_symlink ex_c ex_k (elink "sub") (s2b "/out/f")) = Some ETraversal.
Proof.
  splits; [exact usable_ex| | |vm_compute; reflexivity|vm_compute; auto].
  - split; [apply at_or_belowb_spec; vm_compute; reflexivity|vm_compute; reflexivity].
  - apply ex_approachable; vm_compute; reflexivity.
Qed.

(** ** C26 *)
(** After GetWriter and any writes (of which [t] is what the writer reported
    as written), the file consists of the first WriteOffset bytes it had before
    (filled up with zeros) and [t]; WriteOffset has advanced by the length of
    [t], so it is where the next write goes: to the end. Nothing else has
    changed. *)
Theorem C26_resume_keeps_prefix c k e k1 w os k2 t adv : usable c -> inside c e -> approachable k (eloc c e) ->
  no_fault (fk_fs k) \/ (forall t, look (fk_fs k) (eloc c e) <> Some (SLink t)) ->
  fk_getw c k e = (k1, Ok w) -> write_all k1 w os = (k2, t, adv) ->
  let old := file_content (fk_fs k) (eloc c e) in let n := Z.to_nat (en_woff e) in
  exists m, look (fk_fs k2) (eloc c e) = Some (SFile ((firstn n old ++ repeat zero (n - length old)) ++ t) m) /\
    0 <= en_woff e /\ en_woff e + adv = Z.of_nat (length ((firstn n old ++ repeat zero (n - length old)) ++ t)) /\
    (no_fault (fk_fs k1) -> t = concat (map (fun o => match o with Some x => x | None => [] end) os)) /\
    only_changed (eloc c e) (fk_fs k) (fk_fs k2).
Proof.
  intros Hu Hi Ap Hx E E2. destruct (inside_dest c e Hu Hi) as (Hd & Hn & Hne). destruct Hi as [Hin Hig].
  assert (Hx' : (forall t, f_tree (fk_fs k) (eloc c e) <> Some (FLink t)) \/ no_fault (fk_fs k)).
  { destruct Hx as [Hx|Hx]; [right; exact Hx|left]. intros t0 Ht. apply (Hx t0). unfold look. rewrite Ht. reflexivity. }
  destruct (getw_at c k e _ Hd Hn Hne Hig Ap k1 (Ok w) Hx' E) as (H1 & H2 & _).
  destruct (H2 w eq_refl) as (Hw & w0 & m & -> & _ & Lk & _ & Wo & _). clear H2.
  destruct (write_all_spec os k1 w0 _ _ m k2 t adv Wo Lk E2) as (Wo2 & Lk2 & -> & F & G).
  exists m. splits; auto.
  - change (firstn (Z.to_nat (en_woff e)) (file_content (fk_fs k) (eloc c e)) ++ repeat zero (Z.to_nat (en_woff e) - length (file_content (fk_fs k) (eloc c e)))) with (zfit (Z.to_nat (en_woff e)) (file_content (fk_fs k) (eloc c e))).
    rewrite app_length, zfit_length. lia.
  - intros q Hq. rewrite F by exact Hq. apply H1. exact Hq.
Qed.
(** GetWriter does succeed, if nothing fails and no folder is in the way. *)
Theorem C26_getwriter_succeeds c k e : usable c -> inside c e -> approachable k (eloc c e) -> no_fault (fk_fs k) ->
  0 <= en_woff e -> (forall m, look (fk_fs k) (eloc c e) <> Some (SDir m)) -> exists k1 w, fk_getw c k e = (k1, Ok w) /\ no_fault (fk_fs k1).
Proof.
  intros Hu Hi Ap Hc Ho Hd0. destruct (inside_dest c e Hu Hi) as (Hd & Hn & Hne). destruct Hi as [Hin Hig].
  destruct (fk_getw c k e) as [k1 r] eqn:E. destruct (getw_at c k e _ Hd Hn Hne Hig Ap k1 r (or_intror Hc) E) as (_ & _ & H3 & _ & H5 & _).
  destruct H3 as [w ->]; auto; [|exists k1, w; split; [reflexivity|exact (H5 Hc)]]. intros m Hm. apply (Hd0 m). unfold look. rewrite Hm. reflexivity.
Qed.
Example C26_example : inside ex_c (efile "f" 420 0 2) /\ approachable ex_k (eloc ex_c (efile "f" 420 0 2)) /\ no_fault (fk_fs ex_k) /\
  let '(k1, _) := fk_getw ex_c ex_k (efile "f" 420 0 2) in
  look (fk_fs (fst (fst (write_all k1 (Some 0%nat) [Some (s2b "AB"); None; Some (s2b "C")])))) (at_ ["out"; "f"]%string) = Some (SFile (s2b "olABC") 438).
Proof.
  splits; [split; [apply at_or_belowb_spec|]; vm_compute; reflexivity|apply ex_approachable; vm_compute; reflexivity|intros n; reflexivity|].
  vm_compute. reflexivity.
Qed.

(** ** C27 *)
Definition fresh_sink (k : fsink) : Prop := fk_writer k = None /\ forall w, fk_ws k w = None.
Lemma fresh_kinv k : fresh_sink k -> kinv (fun h => f_hand (fk_fs k) h <> None) k 0.
Proof. intros [F1 F2]. constructor; auto; [intros w h; rewrite F2; discriminate|]. exists []. split; [auto|]. intros h Hh. left. right. exact Hh. Qed.
(** calls after which the writer [w] must be dead: a GetWriter that succeeded
    (and is not for an ignored name), Close, Nuke, and Close of w itself *)
Definition retires (w : nat) (o : fcall) (r : option gerr) : Prop :=
  match o with
  | CGetWriter e => should_ignore (en_path e) = false /\ r = None
  | CClose | CNuke => True
  | CCloseW (Some v) => v = w
  | _ => False
  end.
(** A writer obtained at any time, retired, and then used at any later time:
    os.ErrClosed, no byte written, WriteOffset and all files unchanged; Close
    does nothing. *)
Theorem C27_retired_writer_is_dead c k0 os1 e k1 w os2 o k3 r os3 k d : fresh_sink k0 ->
  fk_getw c (fcalls_run c k0 os1) e = (k1, Ok (Some w)) ->
  fcall_run c (fcalls_run c k1 os2) o = (k3, r) -> retires w o r -> k = fcalls_run c k3 os3 ->
  fk_write k (Some w) d = (k, (0%nat, 0, Some EClosed)) /\ fk_sync k (Some w) = (k, Some EClosed) /\ fk_closew k (Some w) = (k, None).
Proof.
  intros F E1 E2 Hr ->.
  destruct (kinv_calls _ c os1 k0 _ (fresh_kinv k0 F)) as (K & _ & _).
  destruct (kinv_getw _ c _ _ e k1 _ K E1) as (K1 & _ & _ & G & _). destruct (G w eq_refl) as (_ & _ & _ & [h Hh] & _). clear G.
  destruct (kinv_calls _ c os2 k1 _ K1) as (K2 & _ & D2). specialize (D2 w ltac:(congruence)).
  set (k2 := fcalls_run c k1 os2) in *.
  assert (Hd : fk_ws k3 w = Some None).
  { destruct o as [e0|e0 t|e0|e0| | |v d0|v|[v|]]; cbn [retires] in Hr; try contradiction; cbn [fcall_run] in E2.
    - destruct (fk_getw c k2 e0) as [k' r'] eqn:E. injection E2 as <- <-. destruct (kinv_getw _ c _ _ e0 k' _ K2 E) as (_ & _ & _ & G & G' & _).
      destruct Hr as [Hi Hr]. destruct r' as [[v|]|x| |]; try discriminate Hr.
      + destruct (G v eq_refl) as (_ & _ & _ & _ & H). apply H, D2.
      + exfalso. unfold fk_getw in E. rewrite Hi in E. destruct (create_file c (fk_fs k2) e0) as [s1 r1]; destruct r1 as [h0|y| |]; try discriminate.
        destruct (if 0 <? en_woff e0 then f_seek s1 h0 (en_woff e0) else (s1, None)) as [s2 [y|]]; [discriminate|]. destruct (f_truncate s2 h0 (en_woff e0)) as [s3 [y|]]; [discriminate|].
        destruct (fk_close (set_fs k2 s3)); discriminate.
    - destruct (kinv_nuke _ c _ _ _ _ K2 E2) as (_ & _ & _ & _ & H). apply H, D2.
    - destruct (kinv_close _ _ _ _ _ K2 E2) as (_ & _ & _ & _ & H). apply H, D2.
    - subst v. cbn [fk_closew] in E2. destruct (kinv_closew _ _ _ _ _ _ K2 E2) as (_ & _ & _ & _ & _ & H & _). apply H, D2. }
  destruct (kinv_call _ c _ _ o k3 r K2 E2) as (K3 & _ & _). destruct (kinv_calls _ c os3 k3 _ K3) as (_ & D3 & _). specialize (D3 w Hd).
  unfold fk_write, fk_sync, fk_closew, fk_closew_. rewrite D3. auto.
Qed.
(** A GetWriter for an ignored name, or one that fails, does not retire the
    older writer. *)
Example C27_example : fresh_sink ex_k /\
  let k1 := fst (fk_getw ex_c ex_k (efile "f" 420 0 0)) in
  let k2 := fcalls_run ex_c k1 [CWrite (Some 0%nat) (s2b "a"); CGetWriter (efile "g" 420 0 0)] in
  snd (fk_write k1 (Some 0%nat) (s2b "b")) = (1%nat, 1, None) /\ snd (fk_write k2 (Some 0%nat) (s2b "b")) = (0%nat, 0, Some EClosed) /\
  snd (fk_write k2 (Some 1%nat) (s2b "b")) = (1%nat, 1, None) /\
  snd (fk_write (fst (fk_getw ex_c k1 (efile ("Icon" ++ String (ascii_of_nat 13) "") 420 0 0))) (Some 0%nat) (s2b "b")) = (1%nat, 1, None) /\
  snd (fk_write (fst (fk_getw ex_c k1 (efile "sub" 420 0 0))) (Some 0%nat) (s2b "b")) = (1%nat, 1, None).
Proof. split; [split; reflexivity|]. vm_compute. auto. Qed.

(** ** C28: refuted *)
(** A folder in the way of a file is not replaced, even if nothing fails. *)
Theorem C28_folder_in_the_way_refuted : exists c k e, usable c /\ inside c e /\ approachable k (eloc c e) /\ no_fault (fk_fs k) /\
  0 <= en_woff e /\ snd (fk_getw c k e) = Err EIsDir /\ exists m, look (fk_fs (fst (fk_getw c k e))) (eloc c e) = Some (SDir m).
Proof.
  exists ex_c, ex_k, (efile "sub" 420 0 0). splits; [exact usable_ex|split; [apply at_or_belowb_spec|]; vm_compute; reflexivity| |intros n; reflexivity|cbn; lia|vm_compute; reflexivity|].
  - apply ex_approachable; vm_compute; reflexivity.
  - exists 493. vm_compute. reflexivity.
Qed.
(** Restricted version. GetWriter, unless a folder is in the way: *)
Theorem C28_getwriter_makes_file_partial c k e : usable c -> inside c e -> approachable k (eloc c e) -> no_fault (fk_fs k) ->
  0 <= en_woff e -> (forall m, look (fk_fs k) (eloc c e) <> Some (SDir m)) ->
  exists k1 w m, fk_getw c k e = (k1, Ok w) /\ look (fk_fs k1) (eloc c e) = Some (SFile (zfit (Z.to_nat (en_woff e)) (file_content (fk_fs k) (eloc c e))) m) /\
    only_changed (eloc c e) (fk_fs k) (fk_fs k1).
Proof.
  intros Hu Hi Ap Hc Ho Hd0. destruct (inside_dest c e Hu Hi) as (Hd & Hn & Hne). destruct Hi as [Hin Hig].
  destruct (fk_getw c k e) as [k1 r] eqn:E. destruct (getw_at c k e _ Hd Hn Hne Hig Ap k1 r (or_intror Hc) E) as (H1 & H2 & H3 & _).
  destruct H3 as [w ->]; auto; [intros m Hm; apply (Hd0 m); unfold look; rewrite Hm; reflexivity|].
  destruct (H2 w eq_refl) as (_ & n & m & -> & _ & Lk & _). exists k1, (Some n), m. auto.
Qed.
(** Whatever fails, a symlink is never written through if one was seen, and
    success means there is a file. *)
Theorem C28_getwriter_success_partial c k e k1 w : usable c -> inside c e -> approachable k (eloc c e) ->
  no_fault (fk_fs k) \/ (forall t, look (fk_fs k) (eloc c e) <> Some (SLink t)) -> fk_getw c k e = (k1, Ok w) ->
  exists d m, look (fk_fs k1) (eloc c e) = Some (SFile d m) /\ only_changed (eloc c e) (fk_fs k) (fk_fs k1).
Proof.
  intros Hu Hi Ap Hx E. destruct (C26_resume_keeps_prefix c k e k1 w [] k1 [] 0 Hu Hi Ap Hx E eq_refl) as (m & H1 & _ & _ & _ & H2). eauto.
Qed.
(** Mkdir: *)
Theorem C28_mkdir_makes_folder c k e k1 r : usable c -> inside c e -> approachable k (eloc c e) ->
  no_fault (fk_fs k) \/ (forall t, look (fk_fs k) (eloc c e) <> Some (SLink t)) -> fk_mkdir c k e = (k1, r) ->
  only_changed (eloc c e) (fk_fs k) (fk_fs k1) /\ (r = None -> exists m, look (fk_fs k1) (eloc c e) = Some (SDir m)) /\ (no_fault (fk_fs k) -> r = None) /\
  (forall m, look (fk_fs k) (eloc c e) = Some (SDir m) -> look (fk_fs k1) (eloc c e) = Some (SDir m)).
Proof.
  intros Hu Hi Ap Hx E. destruct (inside_dest c e Hu Hi) as (Hd & Hn & Hne). destruct Hi as [Hin Hig].
  destruct (mkdir_at c k e _ Hd Hn Hne Hig Ap k1 r) as (H1 & H2 & H3 & H4 & _); [|exact E|splits; assumption].
  destruct Hx as [Hx|Hx]; [right; exact Hx|left]. intros t0 Ht. apply (Hx t0). unfold look. rewrite Ht. reflexivity.
Qed.
(** Symlink: see C25_symlink_created. *)
(** The condition "no fault or no symlink there" is needed: if Lstat fails for
    a moment, GetWriter writes through a symlink, and Mkdir is content with a
    symlink to a folder. *)
Definition lstat_fails : nat -> option fault := fun n => match n with 1%nat => Some (MkFault EIO 0 (fun _ => true)) | _ => None end.
Theorem C28_transient_lstat_refuted : let k := ex_sink ex_nodes ex_files lstat_fails in let e := efile "ln" 420 0 0 in
  inside ex_c e /\ approachable k (eloc ex_c e) /\ look (fk_fs k) (eloc ex_c e) = Some (SLink (s2b "f")) /\
  exists k1 w, fk_getw ex_c k e = (k1, Ok w) /\ look (fk_fs k1) (eloc ex_c e) = Some (SLink (s2b "f")) /\
    look (fk_fs k) (at_ ["out"; "f"]%string) = Some (SFile (s2b "old!") 256) /\ look (fk_fs k1) (at_ ["out"; "f"]%string) = Some (SFile [] 256).
Proof.
  cbv zeta. splits; [split; [apply at_or_belowb_spec|]; vm_compute; reflexivity|apply ex_approachable; vm_compute; reflexivity|vm_compute; reflexivity|].
  destruct (fk_getw ex_c (ex_sink ex_nodes ex_files lstat_fails) (efile "ln" 420 0 0)) as [k1 r] eqn:E.
  assert (E1 : k1 = fst (fk_getw ex_c (ex_sink ex_nodes ex_files lstat_fails) (efile "ln" 420 0 0))) by (rewrite E; reflexivity).
  assert (E2 : r = snd (fk_getw ex_c (ex_sink ex_nodes ex_files lstat_fails) (efile "ln" 420 0 0))) by (rewrite E; reflexivity).
  assert (E3 : r = Ok (Some 0%nat)) by (rewrite E2; vm_compute; reflexivity). exists k1, (Some 0%nat). rewrite E3. split; [reflexivity|]. rewrite E1.
  splits; vm_compute; reflexivity.
Qed.
Example C28_example : inside ex_c (efile "ln" 420 0 3) /\ approachable ex_k (eloc ex_c (efile "ln" 420 0 3)) /\ no_fault (fk_fs ex_k) /\
  look (fk_fs (fst (fk_getw ex_c ex_k (efile "ln" 420 0 3)))) (at_ ["out"; "ln"]%string) = Some (SFile [zero; zero; zero] 438) /\
  look (fk_fs (fst (fk_getw ex_c ex_k (efile "ln" 420 0 3)))) (at_ ["out"; "f"]%string) = Some (SFile (s2b "old!") 256) /\
  look (fk_fs (fst (fk_mkdir ex_c ex_k (edir "ln")))) (at_ ["out"; "ln"]%string) = Some (SDir 493) /\
  look (fk_fs (fst (fk_mkdir ex_c ex_k (edir "f")))) (at_ ["out"; "f"]%string) = Some (SDir 493).
Proof.
  splits; [split; [apply at_or_belowb_spec|]; vm_compute; reflexivity|apply ex_approachable; vm_compute; reflexivity|intros n; reflexivity|vm_compute; reflexivity..].
Qed.

(** ** C29 *)
(** Permission bit i of the file afterwards: set if it is set in 0666 or in
    entry.Mode -- for a new file, unless the umask takes it away. *)
Definition mode_bits (s : fsys) (l : loc) (e : entry) (m : Z) : Prop :=
  forall i, 0 <= i < 9 -> Z.testbit m i = (Z.testbit (en_mode e) i || Z.testbit 438 i) &&
    match look s l with None => negb (Z.testbit (f_umask s) i) | Some _ => true end.
Lemma new_mode_bits s l e : mode_bits s l e (new_mode s l e).
Proof.
  intros i Hi. assert (Hp : Z.testbit 511 i = true).
  { change 511 with (Z.ones 9). apply Z.ones_spec_low. lia. }
  unfold new_mode, look, perm, mode_mask. destruct (f_tree s l) as [[| |]|].
  - rewrite Z.land_spec, Z.lor_spec, Hp. reflexivity.
  - rewrite Z.land_spec, Z.lor_spec, Hp. reflexivity.
  - rewrite Z.land_spec, Z.lor_spec, Hp. reflexivity.
  - rewrite !Z.land_spec, Z.lor_spec, Hp, Z.lnot_spec by lia. rewrite andb_true_r. reflexivity.
Qed.
Theorem C29_getwriter_mode c k e k1 w : usable c -> inside c e -> approachable k (eloc c e) -> no_fault (fk_fs k) ->
  fk_getw c k e = (k1, Ok w) -> exists d m, look (fk_fs k1) (eloc c e) = Some (SFile d m) /\ mode_bits (fk_fs k) (eloc c e) e m.
Proof.
  intros Hu Hi Ap Hc E. destruct (inside_dest c e Hu Hi) as (Hd & Hn & Hne). destruct Hi as [Hin Hig].
  destruct (getw_at c k e _ Hd Hn Hne Hig Ap k1 _ (or_intror Hc) E) as (_ & H2 & _).
  destruct (H2 w eq_refl) as (_ & n & m & _ & _ & Lk & Hm & _). rewrite (Hm Hc) in Lk. eexists _, _. split; [exact Lk|apply new_mode_bits].
Qed.
Theorem C29_preallocate_mode c k e k1 : usable c -> inside c e -> approachable k (eloc c e) -> no_fault (fk_fs k) ->
  fk_prealloc c k e = (k1, None) -> exists d m, look (fk_fs k1) (eloc c e) = Some (SFile d m) /\ mode_bits (fk_fs k) (eloc c e) e m.
Proof.
  intros Hu Hi Ap Hc E. destruct (inside_dest c e Hu Hi) as (Hd & Hn & Hne). destruct Hi as [Hin Hig].
  destruct (prealloc_at c k e _ Hd Hn Hne Hig Ap k1 _ (or_intror Hc) E) as (_ & _ & H2 & _).
  destruct (H2 eq_refl) as (m & Lk & Hm). rewrite (Hm Hc) in Lk. eexists _, _. split; [exact Lk|apply new_mode_bits].
Qed.
Example C29_example : approachable ex_k (eloc ex_c (efile "f" 73 0 0)) /\ approachable ex_k (eloc ex_c (efile "a/b" 73 0 0)) /\
  look (fk_fs (fst (fk_getw ex_c ex_k (efile "f" 73 0 0)))) (at_ ["out"; "f"]%string) = Some (SFile [] 511) /\
  look (fk_fs (fst (fk_getw ex_c ex_k (efile "a/b" 73 0 0)))) (at_ ["out"; "a"; "b"]%string) = Some (SFile [] 493).
Proof. splits; [apply ex_approachable; vm_compute; reflexivity..|vm_compute; reflexivity|vm_compute; reflexivity]. Qed.

(** ** C30 *)
(** The last component of the path is "Icon\r" (slashes after it do not count). *)
Definition named_icon (cp : bytes) : Prop := exists pre sl, cp = pre ++ s2b "Icon" ++ [ascii_of_nat 13] ++ sl /\
  (pre = [] \/ exists z, pre = z ++ s2b "/") /\ Forall (fun b => [b] = s2b "/") sl.
Lemma named_icon_spec cp : named_icon cp <-> should_ignore cp = true.
Proof.
  rewrite should_ignore_spec. split; intros (pre & sl & -> & H & F); exists pre, sl; (split; [unfold icon_cr; rewrite <- ?app_assoc; reflexivity|]); (split; [exact H|]).
  - eapply Forall_impl; [|exact F]. intros a Ha. symmetry. injection Ha. auto.
  - eapply Forall_impl; [|exact F]. intros a <-. reflexivity.
Qed.
(** Such an entry: success, and nothing at all has happened; GetWriter's writer
    takes everything and does nothing. *)
Theorem C30_ignored c k o e : call_entry o = Some e -> named_icon (en_path e) -> fcall_run c k o = (k, None).
Proof.
  intros Hc Hn. apply named_icon_spec in Hn. destruct o; try discriminate; injection Hc as ->; cbn [fcall_run].
  - unfold fk_mkdir. rewrite Hn. reflexivity.
  - unfold fk_symlink. rewrite Hn. reflexivity.
  - unfold fk_getw. rewrite Hn. reflexivity.
  - unfold fk_prealloc. rewrite Hn. reflexivity.
Qed.
Theorem C30_ignored_writer c k e : named_icon (en_path e) -> exists w, fk_getw c k e = (k, Ok w) /\
  forall k' d, fk_write k' w d = (k', (length d, 0, None)) /\ fk_sync k' w = (k', None) /\ fk_closew k' w = (k', None).
Proof. intros Hn. apply named_icon_spec in Hn. exists None. unfold fk_getw. rewrite Hn. auto. Qed.
(** No other entry gets such a writer. *)
Theorem C30_others_not_ignored c k e k' : ~ named_icon (en_path e) -> fk_getw c k e <> (k', Ok None).
Proof.
  intros Hn E. assert (Hi : should_ignore (en_path e) = false) by (destruct (should_ignore (en_path e)) eqn:X; [apply named_icon_spec in X; contradiction|reflexivity]).
  unfold fk_getw in E. rewrite Hi in E. destruct (create_file c (fk_fs k) e) as [s1 r1]; destruct r1 as [h0|y| |]; try discriminate.
  destruct (if 0 <? en_woff e then f_seek s1 h0 (en_woff e) else (s1, None)) as [s2 [y|]]; [discriminate|]. destruct (f_truncate s2 h0 (en_woff e)) as [s3 [y|]]; [discriminate|].
  destruct (fk_close (set_fs k s3)); discriminate.
Qed.
Example C30_example : named_icon (s2b "sub/Icon" ++ [ascii_of_nat 13]) /\ ~ named_icon (s2b "sub/xIcon" ++ [ascii_of_nat 13]) /\ ~ named_icon (s2b "Icon").
Proof.
  splits; [apply named_icon_spec; vm_compute; reflexivity|intros H; apply named_icon_spec in H; vm_compute in H; discriminate..].
Qed.

(** ** C31 *)
(** Whatever happens, Preallocate keeps the bytes of an existing file and at
    most appends zeros, not beyond UncompressedSize; if it succeeds the file has
    at least that size. *)
Theorem C31_preallocate_keeps_data c k e k1 r : usable c -> inside c e -> approachable k (eloc c e) ->
  no_fault (fk_fs k) \/ (forall t, look (fk_fs k) (eloc c e) <> Some (SLink t)) ->
  fk_prealloc c k e = (k1, r) ->
  (forall d m0, look (fk_fs k) (eloc c e) = Some (SFile d m0) ->
     exists n m, look (fk_fs k1) (eloc c e) = Some (SFile (d ++ repeat zero n) m) /\ (n <= Z.to_nat (en_usize e) - length d)%nat) /\
  (r = None -> exists m, look (fk_fs k1) (eloc c e) = Some (SFile (file_content (fk_fs k) (eloc c e) ++
     repeat zero (Z.to_nat (en_usize e) - length (file_content (fk_fs k) (eloc c e)))) m)) /\
  only_changed (eloc c e) (fk_fs k) (fk_fs k1) /\
  (no_fault (fk_fs k) -> (forall m, look (fk_fs k) (eloc c e) <> Some (SDir m)) -> r = None).
Proof.
  intros Hu Hi Ap Hx E. destruct (inside_dest c e Hu Hi) as (Hd & Hn & Hne). destruct Hi as [Hin Hig].
  assert (Hx' : (forall t, f_tree (fk_fs k) (eloc c e) <> Some (FLink t)) \/ no_fault (fk_fs k)).
  { destruct Hx as [Hx|Hx]; [right; exact Hx|left]. intros t0 Ht. apply (Hx t0). unfold look. rewrite Ht. reflexivity. }
  destruct (prealloc_at c k e _ Hd Hn Hne Hig Ap k1 r Hx' E) as (H1 & H2 & H3 & _ & H5 & _). splits; auto.
  - intros Hr. destruct (H3 Hr) as (m & Lk & _). eauto.
  - intros Hc Hd0. apply H5; [exact Hc|]. intros m Hm. apply (Hd0 m). unfold look. rewrite Hm. reflexivity.
Qed.
(** It makes no difference to the file that a later GetWriter and writes
    produce: the same as in C26_resume_keeps_prefix. *)
Theorem C31_preallocate_then_write c k e k0 e' k1 w os k2 t adv : usable c -> inside c e -> approachable k (eloc c e) ->
  no_fault (fk_fs k) \/ (forall t, look (fk_fs k) (eloc c e) <> Some (SLink t)) ->
  fk_prealloc c k e = (k0, None) -> eloc c e' = eloc c e -> should_ignore (en_path e') = false ->
  fk_getw c k0 e' = (k1, Ok w) -> write_all k1 w os = (k2, t, adv) ->
  let old := file_content (fk_fs k) (eloc c e) in let n := Z.to_nat (en_woff e') in
  exists m, look (fk_fs k2) (eloc c e) = Some (SFile ((firstn n old ++ repeat zero (n - length old)) ++ t) m).
Proof.
  intros Hu Hi Ap Hx E El Hi' E1 E2. destruct (inside_dest c e Hu Hi) as (Hd & Hn & Hne). pose proof Hi as [Hin Hig].
  assert (Hx' : (forall t, f_tree (fk_fs k) (eloc c e) <> Some (FLink t)) \/ no_fault (fk_fs k)).
  { destruct Hx as [Hx|Hx]; [right; exact Hx|left]. intros t0 Ht. apply (Hx t0). unfold look. rewrite Ht. reflexivity. }
  destruct (prealloc_at c k e _ Hd Hn Hne Hig Ap k0 _ Hx' E) as (_ & _ & H3 & _ & _ & _ & Ap').
  destruct (H3 eq_refl) as (m0 & Lk & _).
  destruct (C26_resume_keeps_prefix c k0 e' k1 w os k2 t adv Hu) as (m & H & _); auto.
  - split; [rewrite El; exact Hin|exact Hi'].
  - rewrite El. exact Ap'.
  - right. intros t0. rewrite El, Lk. discriminate.
  - cbv zeta. exists m. rewrite El in H. rewrite H. f_equal. f_equal. f_equal.
    assert (Hf : file_content (fk_fs k0) (eloc c e) = file_content (fk_fs k) (eloc c e) ++ repeat zero (Z.to_nat (en_usize e) - length (file_content (fk_fs k) (eloc c e)))).
    { unfold file_content at 1. rewrite Lk. reflexivity. }
    rewrite Hf. exact (zfit_zeros (Z.to_nat (en_woff e')) _ _).
Qed.
Example C31_example : let e := efile "f" 420 6 0 in inside ex_c e /\ approachable ex_k (eloc ex_c e) /\ no_fault (fk_fs ex_k) /\
  look (fk_fs (fst (fk_prealloc ex_c ex_k e))) (at_ ["out"; "f"]%string) = Some (SFile (s2b "old!" ++ [zero; zero]) 438) /\
  look (fk_fs (fst (fk_prealloc ex_c ex_k (efile "f" 420 2 0)))) (at_ ["out"; "f"]%string) = Some (SFile (s2b "old!") 438) /\
  (* legacy mode: SAVIOR_LEGACY_PREALLOCATE=1 *)
  look (fk_fs (fst (fk_prealloc (MkFcfg (s2b "/") (s2b "/out") true) ex_k e))) (at_ ["out"; "f"]%string) = Some (SFile (s2b "old!" ++ [zero; zero]) 438).
Proof.
  cbv zeta. splits; [split; [apply at_or_belowb_spec|]; vm_compute; reflexivity|apply ex_approachable; vm_compute; reflexivity|intros n; reflexivity|vm_compute; reflexivity..].
Qed.

(** ** C32: refuted *)
(** Directory = "" stands for the working directory everywhere else, but Nuke
    then reports success and removes nothing. *)
Theorem C32_nuke_empty_directory_refuted : exists c k, plain c k /\ usable c /\ no_fault (fk_fs k) /\
  let '(k', r) := fk_nuke c k in r = None /\ at_or_below (fbase c) (at_ ["out"; "f"]%string) /\ look (fk_fs k') (at_ ["out"; "f"]%string) = Some (SFile (s2b "old!") 256).
Proof.
  exists (MkFcfg (s2b "/out") [] false), (MkFsk (MkFs (tree_of ex_nodes0) (ex_inode ex_files) 3 (fun _ => None) 0 (at_ ["out"]%string) 18 ok_orc []) None (fun _ => None) 0).
  pose proof ex_k0_plain as [P1 P2 P3 P4 P5 P6 P7]. splits.
  - constructor; auto. exists [], []. splits; auto; constructor.
  - split; [reflexivity|discriminate].
  - intros n; reflexivity.
  - vm_compute. splits; auto. exists (at_ ["f"]%string). reflexivity.
Qed.
(** Restricted version, Directory <> "" (and no symlinks on the way to it, no
    ".." after a name in it). *)
Theorem C32_nuke_partial c k k' r : is_abs (fc_wd c) = true -> f_wd (fk_fs k) = locate [] (fc_wd c) -> fc_dir c <> [] ->
  no_dotdot_after_name (pcomps (fc_dir c)) ->
  (forall q t, at_or_below q (fbase c) -> look (fk_fs k) q <> Some (SLink t)) ->
  (forall l q, look (fk_fs k) l <> None -> at_or_below q l -> look (fk_fs k) q <> None) ->
  fk_nuke c k = (k', r) ->
  (forall l, ~ at_or_below (fbase c) l -> look (fk_fs k') l = look (fk_fs k) l) /\
  (r = None -> forall l, at_or_below (fbase c) l -> look (fk_fs k') l = None).
Proof.
  intros Hwd Hf Hd Ht Hl Hp E. apply (nuke_spec c k k' r Hwd Hf Ht Hd); auto.
  - intros q t Hq Et. apply (Hl q t Hq). unfold look. rewrite Et. reflexivity.
  - assert (L : forall l, look (fk_fs k) l <> None <-> f_tree (fk_fs k) l <> None) by (intros l; unfold look; destruct (f_tree (fk_fs k) l) as [[| |]|]; split; congruence).
    intros l q H1 H2. apply L. apply (Hp l q); [apply L; exact H1|exact H2].
Qed.
(** Writers obtained before cannot write any more: C27_retired_writer_is_dead
    (whether or not Nuke succeeds). *)
Example C32_example : look (fk_fs ex_k) (at_ ["out"; "sub"; "x"]%string) <> None /\ fc_dir ex_c <> [] /\ no_dotdot_after_name (pcomps (fc_dir ex_c)) /\
  let '(k', r) := fk_nuke ex_c ex_k in r = None /\ look (fk_fs k') (at_ ["out"]%string) = None /\ look (fk_fs k') (at_ ["out"; "sub"; "x"]%string) = None /\
  look (fk_fs k') (at_ ["etc"; "passwd"]%string) = Some (SFile (s2b "root") 420).
Proof. splits; [vm_compute; discriminate|discriminate|exact ex_dir_tidy|]. vm_compute. auto. Qed.

(** ** C33: refuted *)
(** If Truncate fails, GetWriter leaves the file open; so files pile up. *)
Definition trunc_fails : nat -> option fault := fun n => if Nat.eqb (Nat.modulo n 4) 3 then Some (MkFault EIO 0 (fun _ => true)) else None.
Theorem C33_leak_refuted : exists c k os, fresh_sink k /\ (forall h, f_hand (fk_fs k) h = None) /\
  let k' := fcalls_run c k os in f_hand (fk_fs k') 0 <> None /\ f_hand (fk_fs k') 1 <> None /\ f_hand (fk_fs k') 2 <> None /\ fk_writer k' = None.
Proof.
  exists ex_c, (ex_sink ex_nodes ex_files trunc_fails), [CGetWriter (efile "n1" 420 0 0); CGetWriter (efile "n2" 420 0 0); CGetWriter (efile "n3" 420 0 0); CClose].
  splits; [split; reflexivity|intros h; reflexivity|]. vm_compute. splits; auto; discriminate.
Qed.
(** Restricted version: the number of open files is at most one, plus one per
    GetWriter or Preallocate call that failed; none (plus these) after Close
    and Nuke. [P]: files that were already open before. *)
Theorem C33_open_files_partial c k os : fresh_sink k -> let k' := fcalls_run c k os in
  exists L, (length L <= failed_opens c k os + 1)%nat /\ forall h, f_hand (fk_fs k') h <> None -> In h L \/ f_hand (fk_fs k) h <> None.
Proof.
  intros F. cbv zeta. destruct (kinv_calls _ c os k _ (fresh_kinv k F)) as ([_ B (L & HL & C)] & _). cbn [Nat.add] in HL.
  set (k' := fcalls_run c k os) in *.
  destruct (fk_writer k') as [w|] eqn:Ew; [destruct (fk_ws k' w) as [[h0|]|] eqn:Eh|].
  - exists (h0 :: L). cbn [length]. split; [lia|]. intros h Hh. destruct (C h Hh) as [[H|H]|[v Hv]]; [left; right; exact H|right; exact H|].
    pose proof (B v h Hv) as X. injection X as <-. left. left. congruence.
  - exists L. split; [lia|]. intros h Hh. destruct (C h Hh) as [[H|H]|[v Hv]]; auto. pose proof (B v h Hv) as X. injection X as <-. congruence.
  - exists L. split; [lia|]. intros h Hh. destruct (C h Hh) as [[H|H]|[v Hv]]; auto. pose proof (B v h Hv) as X. injection X as <-. congruence.
  - exists L. split; [lia|]. intros h Hh. destruct (C h Hh) as [[H|H]|[v Hv]]; auto. pose proof (B v h Hv) as X. discriminate.
Qed.
Theorem C33_none_open_after_close_partial c k os o : fresh_sink k -> o = CClose \/ o = CNuke -> let k' := fcalls_run c k (os ++ [o]) in
  exists L, (length L <= failed_opens c k (os ++ [o]))%nat /\ forall h, f_hand (fk_fs k') h <> None -> In h L \/ f_hand (fk_fs k) h <> None.
Proof.
  intros F Ho. cbv zeta. destruct (kinv_calls _ c (os ++ [o]) k _ (fresh_kinv k F)) as ([_ B (L & HL & C)] & _). cbn [Nat.add] in HL.
  exists L. split; [exact HL|]. intros h Hh. destruct (C h Hh) as [H|[v Hv]]; [exact H|]. exfalso.
  assert (Hn : forall os k, fcalls_run c k (os ++ [o]) = fst (fcall_run c (fcalls_run c k os) o)).
  { clear. induction os as [|x os IH]; intros k; [reflexivity|]. cbn. apply IH. }
  rewrite Hn in Hv. destruct (kinv_calls _ c os k _ (fresh_kinv k F)) as (K & _). destruct (fcall_run c (fcalls_run c k os) o) as [k1 r1] eqn:E. cbn [fst] in Hv.
  destruct Ho as [-> | ->]; cbn [fcall_run] in E.
  - destruct (kinv_close _ _ _ _ _ K E) as (_ & _ & _ & H & _). exact (H v h Hv).
  - destruct (kinv_nuke _ _ _ _ _ _ K E) as (_ & _ & _ & H & _). exact (H v h Hv).
Qed.
Example C33_example : fresh_sink ex_k /\ let os := [CGetWriter (efile "f" 420 0 0); CGetWriter (efile "g" 420 0 0); CPreallocate (efile "h" 420 9 0); CWrite (Some 1%nat) (s2b "g")] in
  failed_opens ex_c ex_k os = 0%nat /\ f_hand (fk_fs (fcalls_run ex_c ex_k os)) 1 <> None /\ f_hand (fk_fs (fcalls_run ex_c ex_k os)) 0 = None /\ f_hand (fk_fs (fcalls_run ex_c ex_k os)) 2 = None.
Proof. split; [split; reflexivity|]. vm_compute. splits; auto. discriminate. Qed.
