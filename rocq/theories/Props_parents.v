(** Props_parents.v -- C73: the folders that FolderSink creates *)
From Verif Require Import Base Base_proofs Path PathSpec Path_proofs Source Sink SinkSpec FS FS_proofs FolderSink FSteps_proofs FSLex_proofs FolderSpec Folder_proofs FolderOps_proofs Parents_proofs ExFolder Props_folder.

(** ** C73 *)
(** README: "Always creates necessary parent folders (with 0755)". The first
    half is true, see below. The second is not: for a file (or a symlink) they
    are created with 0777, and only the umask takes bits away -- without an
    umask, anyone may write into them. *)
Definition open_k : fsink :=
  let k := ex_sink [ ([], FDir 493); (at_ ["out"]%string, FDir 493) ] [] ok_orc in
  MkFsk (MkFs (f_tree (fk_fs k)) (f_ino (fk_fs k)) (f_next (fk_fs k)) (f_hand (fk_fs k)) (f_nexth (fk_fs k)) (f_wd (fk_fs k)) 0 (f_orc (fk_fs k)) []) None (fk_ws k) 0.
Theorem C73_mode_0755_refuted : exists c k e, usable c /\ inside c e /\ plain c k /\ no_fault (fk_fs k) /\
  forall o, In o [CGetWriter e; CPreallocate e; CSymlink e (s2b "x")] ->
    let '(k', r) := fcall_run c k o in r = None /\
    look (fk_fs k) (removelast (eloc c e)) = None /\ look (fk_fs k') (removelast (eloc c e)) = Some (SDir 511).
Proof.
  exists ex_c, open_k, (efile "a/b" 420 0 0). splits.
  - exact usable_ex.
  - split; [apply at_or_belowb_spec|]; vm_compute; reflexivity.
  - assert (P : plain ex_c (ex_sink [ ([], FDir 493); (at_ ["out"]%string, FDir 493) ] [] ok_orc)) by (apply ex_plain; reflexivity).
    destruct P as [P1 P2 P3 P4 P5 P6 P7]. constructor; assumption.
  - intros n. reflexivity.
  - intros o [<-|[<-|[<-|[]]]]; vm_compute; auto.
Qed.

(** What is true: after a call that succeeded, everything above the entry's
    place is a folder; those that were there are as they were; the missing ones
    have been created, Mkdir's with 0755 and the others with 0777 less the
    umask -- 0755 in both cases with the usual umask 022. *)
Definition made_with (o : fcall) : Z := match o with CMkdir _ => 493 (* 0755 *) | _ => 511 (* 0777 *) end.
Theorem C73_parent_folders_partial c k o e k' : usable c -> inside c e -> approachable k (eloc c e) ->
  no_fault (fk_fs k) \/ (forall t, look (fk_fs k) (eloc c e) <> Some (SLink t)) ->
  call_entry o = Some e -> fcall_run c k o = (k', None) ->
  forall q, at_or_below q (eloc c e) -> q <> eloc c e ->
    exists m, look (fk_fs k') q = Some (SDir m) /\
      (look (fk_fs k) q = Some (SDir m) \/
       look (fk_fs k) q = None /\ m = Z.land (made_with o) (Z.lnot (f_umask (fk_fs k))) /\ (f_umask (fk_fs k) = 18 (* 022 *) -> m = 493)).
Proof.
  intros Hu Hi Ap Hx Ho E q Hq Hqn. destruct (inside_dest c e Hu Hi) as (Hd & Hn & Hne). destruct Hi as [Hin Hig].
  assert (Hx' : (forall t, f_tree (fk_fs k) (eloc c e) <> Some (FLink t)) \/ no_fault (fk_fs k)).
  { destruct Hx as [Hx|Hx]; [right; exact Hx|left]. intros t0 Ht. apply (Hx t0). unfold look. rewrite Ht. reflexivity. }
  assert (Hal : alldirs (fk_fs k') (eloc c e)).
  { destruct o as [e0|e0 t|e0|e0| | | | |]; try discriminate; injection Ho as ->; cbn [fcall_run] in E.
    - destruct (mkdir_at c k e _ Hd Hn Hne Hig Ap k' None Hx' E) as (_ & _ & _ & _ & H). apply H. reflexivity.
    - destruct (symlink_at c k e _ Hd Hn Hne Hig Ap t k' None E) as (_ & _ & _ & H). apply H. reflexivity.
    - destruct (fk_getw c k e) as [k1 r] eqn:E1. destruct (getw_at c k e _ Hd Hn Hne Hig Ap k1 r Hx' E1) as (_ & H2 & _).
      destruct r as [w|x| |]; cbn [err_of] in E; try discriminate. injection E as <-. destruct (H2 w eq_refl) as (_ & n & m & _ & _ & _ & _ & _ & H). exact H.
    - destruct (prealloc_at c k e _ Hd Hn Hne Hig Ap k' None Hx' E) as (_ & _ & H1 & _ & _ & _ & Ap').
      destruct (H1 eq_refl) as (m & H & _). intros q0 Hq0 Hq0'. apply (ap_tree _ _ Ap' (eloc c e)); auto.
      intros E0. unfold look in H. rewrite E0 in H. discriminate. }
  destruct (Hal q Hq Hqn) as [m Hm]. exists m. split; [unfold look; rewrite Hm; reflexivity|].
  destruct (nd_call c k o k' None E) as [_ Hnd].
  destruct (f_tree (fk_fs k) q) as [n|] eqn:Eq.
  - destruct (ap_above _ _ Ap q n Hq Hqn Eq) as [m0 ->]. left. unfold look. rewrite Eq.
    assert (Hs : f_tree (fk_fs k') q = f_tree (fk_fs k) q \/ f_tree (fk_fs k) q = None).
    { enough (Hl : look (fk_fs k') q = look (fk_fs k) q \/ (at_or_below q (eloc c e) /\ look (fk_fs k) q = None /\ exists m, look (fk_fs k') q = Some (SDir m))).
      { unfold look in Hl. rewrite Hm, Eq in Hl. destruct Hl as [Hl|(_ & Hl & _)]; [|discriminate]. left. congruence. }
      destruct o as [e0|e0 t|e0|e0| | | | |]; try discriminate; injection Ho as ->; cbn [fcall_run] in E.
      - destruct (mkdir_at c k e _ Hd Hn Hne Hig Ap k' None Hx' E) as (H & _). apply H. exact Hqn.
      - destruct (symlink_at c k e _ Hd Hn Hne Hig Ap t k' None E) as (H & _). apply H. apply below_strict; assumption.
      - destruct (fk_getw c k e) as [k1 r] eqn:E1. destruct (getw_at c k e _ Hd Hn Hne Hig Ap k1 r Hx' E1) as (H & _). injection E as <- _. apply H. exact Hqn.
      - destruct (prealloc_at c k e _ Hd Hn Hne Hig Ap k' None Hx' E) as (H & _). apply H. exact Hqn. }
    destruct Hs as [Hs|Hs]; congruence.
  - right. split; [unfold look; rewrite Eq; reflexivity|]. destruct (Hnd q m Hm) as [H|H]; [congruence|].
    assert (Hmo : m = Z.land (made_with o) (Z.lnot (f_umask (fk_fs k)))) by (destruct o; exact H).
    split; [exact Hmo|]. intros Hum. rewrite Hum in Hmo. rewrite Hmo. destruct o; reflexivity.
Qed.

(** No condition: whatever is in the way, whatever fails, after any calls, a
    folder is an old one with its old mode or has one of these two modes. *)
Theorem C73_new_folder_modes_partial c k os l m : look (fk_fs (fcalls_run c k os)) l = Some (SDir m) ->
  look (fk_fs k) l = Some (SDir m) \/ m = Z.land 493 (Z.lnot (f_umask (fk_fs k))) \/ m = Z.land 511 (Z.lnot (f_umask (fk_fs k))).
Proof.
  assert (Hlk : forall s l m, look s l = Some (SDir m) <-> f_tree s l = Some (FDir m)).
  { intros s l0 m0. unfold look. destruct (f_tree s l0) as [[| |]|]; split; intros E; try discriminate; congruence. }
  rewrite !Hlk. enough (H : f_umask (fk_fs (fcalls_run c k os)) = f_umask (fk_fs k) /\
    forall l m, f_tree (fk_fs (fcalls_run c k os)) l = Some (FDir m) -> f_tree (fk_fs k) l = Some (FDir m) \/
      m = Z.land 493 (Z.lnot (f_umask (fk_fs k))) \/ m = Z.land 511 (Z.lnot (f_umask (fk_fs k)))) by apply H.
  revert k. induction os as [|o os IH]; intros k; cbn [fcalls_run]; [auto|].
  destruct (fcall_run c k o) as [k1 r] eqn:E. cbn [fst]. destruct (nd_call c k o k1 r E) as [U N]. destruct (IH k1) as [U1 N1].
  split; [congruence|]. intros l0 m0 H. destruct (N1 l0 m0 H) as [H1|[H1|H1]]; [|rewrite U in H1; auto..].
  destruct (N l0 m0 H1) as [H2|H2]; [auto|]. right. destruct o; auto.
Qed.

Example C73_example : let e := efile "a/b/c" 420 0 0 in
  inside ex_c e /\ approachable ex_k (eloc ex_c e) /\ no_fault (fk_fs ex_k) /\ f_umask (fk_fs ex_k) = 18 /\
  look (fk_fs ex_k) (at_ ["out"; "a"]%string) = None /\
  let '(k', r) := fcall_run ex_c ex_k (CGetWriter e) in r = None /\
  look (fk_fs k') (at_ ["out"; "a"; "b"]%string) = Some (SDir 493) /\ look (fk_fs k') (at_ ["out"; "a"]%string) = Some (SDir 493).
Proof.
  cbv zeta. splits; [split; [apply at_or_belowb_spec|]; vm_compute; reflexivity|apply ex_approachable; vm_compute; reflexivity|intros n; reflexivity|reflexivity|vm_compute; reflexivity|].
  vm_compute. auto.
Qed.

(** ** C74 *)
(** README: "Truncates file to entry.UncompressedSize when Preallocate() is
    called, but not when GetWriter() is called". It is the other way round:
    Preallocate leaves a longer file as it is, GetWriter truncates. *)
Theorem C74_preallocate_truncates_refuted : exists c k e, usable c /\ inside c e /\ approachable k (eloc c e) /\ no_fault (fk_fs k) /\
  0 < en_usize e < zlen (file_content (fk_fs k) (eloc c e)) /\
  let '(k', r) := fk_prealloc c k e in r = None /\ file_content (fk_fs k') (eloc c e) = file_content (fk_fs k) (eloc c e).
Proof.
  exists ex_c, ex_k, (efile "f" 420 2 0).
  splits; [exact usable_ex|split; [apply at_or_belowb_spec|]; vm_compute; reflexivity|apply ex_approachable; vm_compute; reflexivity|intros n; reflexivity|vm_compute; reflexivity..|].
  vm_compute. auto.
Qed.
Theorem C74_getwriter_truncates_refuted : exists c k e, usable c /\ inside c e /\ approachable k (eloc c e) /\ no_fault (fk_fs k) /\
  file_content (fk_fs k) (eloc c e) <> [] /\
  let '(k', r) := fk_getw c k e in (exists w, r = Ok w) /\ file_content (fk_fs k') (eloc c e) = [].
Proof.
  exists ex_c, ex_k, (efile "f" 420 2 0).
  splits; [exact usable_ex|split; [apply at_or_belowb_spec|]; vm_compute; reflexivity|apply ex_approachable; vm_compute; reflexivity|intros n; reflexivity|vm_compute; discriminate|].
  vm_compute. eauto.
Qed.
(** What is true: after Preallocate the file has size UncompressedSize if it was
    not longer; GetWriter leaves exactly WriteOffset bytes, the first ones of the
    file (filled up with zeros). *)
Theorem C74_sizes_partial c k e : usable c -> inside c e -> approachable k (eloc c e) -> no_fault (fk_fs k) ->
  (forall m, look (fk_fs k) (eloc c e) <> Some (SDir m)) ->
  let old := file_content (fk_fs k) (eloc c e) in
  (exists k1 d m, fk_prealloc c k e = (k1, None) /\ look (fk_fs k1) (eloc c e) = Some (SFile d m) /\
     zlen d = Z.max (zlen old) (en_usize e) /\ firstn (length old) d = old) /\
  (0 <= en_woff e -> exists k1 w d m, fk_getw c k e = (k1, Ok w) /\ look (fk_fs k1) (eloc c e) = Some (SFile d m) /\
     zlen d = en_woff e /\ firstn (length old) d = firstn (Z.to_nat (en_woff e)) old).
Proof.
  intros Hu Hi Ap Hc Hd0. cbv zeta. set (old := file_content (fk_fs k) (eloc c e)). split.
  - destruct (fk_prealloc c k e) as [k1 r] eqn:E. destruct (C31_preallocate_keeps_data c k e k1 r Hu Hi Ap (or_introl Hc) E) as (_ & H2 & _ & H4).
    rewrite (H4 Hc Hd0) in *. destruct (H2 eq_refl) as (m & Lk). fold old in Lk. eexists k1, _, m. splits; [reflexivity|exact Lk| |].
    + unfold zlen. rewrite app_length, repeat_length. lia.
    + rewrite firstn_app, Nat.sub_diag, firstn_all. cbn. apply app_nil_r.
  - intros Hw. destruct (C28_getwriter_makes_file_partial c k e Hu Hi Ap Hc Hw Hd0) as (k1 & w & m & E & Lk & _). fold old in Lk.
    eexists k1, w, _, m. splits; [exact E|exact Lk| |].
    + unfold zlen, zfit. rewrite app_length, firstn_length, repeat_length. lia.
    + unfold zfit. destruct (Nat.le_gt_cases (Z.to_nat (en_woff e)) (length old)) as [Hle|Hgt].
      * replace (Z.to_nat (en_woff e) - length old)%nat with 0%nat by lia. cbn. rewrite app_nil_r, firstn_firstn. f_equal. lia.
      * rewrite (firstn_all2 (n := Z.to_nat (en_woff e)) old) by lia. rewrite firstn_app, Nat.sub_diag, firstn_all. cbn. apply app_nil_r.
Qed.
Example C74_example : let e := efile "f" 420 6 3 in inside ex_c e /\ approachable ex_k (eloc ex_c e) /\ no_fault (fk_fs ex_k) /\
  (forall m, look (fk_fs ex_k) (eloc ex_c e) <> Some (SDir m)) /\ zlen (file_content (fk_fs ex_k) (eloc ex_c e)) = 4.
Proof.
  cbv zeta. splits; [split; [apply at_or_belowb_spec|]; vm_compute; reflexivity|apply ex_approachable; vm_compute; reflexivity|intros n; reflexivity|vm_compute; discriminate|vm_compute; reflexivity].
Qed.
