(** FolderSpec.v -- specification vocabulary for FolderSink: histories of calls,
    and what an observer of the file system sees. *)
From Verif Require Import Base Path PathSpec Source Sink SinkSpec FS FolderSink.

(** A call on a FolderSink or on a writer obtained from it. *)
Inductive fcall :=
| CMkdir (e : entry) | CSymlink (e : entry) (t : bytes) | CGetWriter (e : entry) | CPreallocate (e : entry)
| CNuke | CClose | CWrite (w : option nat) (d : bytes) | CSync (w : option nat) | CCloseW (w : option nat).

(** Its error result. *)
Definition err_of {A} (r : res A) : option gerr := match r with Ok _ => None | Err e => Some e | _ => Some EIO end.
Definition fcall_run (c : fcfg) (k : fsink) (o : fcall) : fsink * option gerr :=
  match o with
  | CMkdir e => fk_mkdir c k e
  | CSymlink e t => fk_symlink c k e t
  | CGetWriter e => let '(k, r) := fk_getw c k e in (k, err_of r)
  | CPreallocate e => fk_prealloc c k e
  | CNuke => fk_nuke c k
  | CClose => fk_close k
  | CWrite w d => let '(k, (_, _, r)) := fk_write k w d in (k, r)
  | CSync w => fk_sync k w
  | CCloseW w => fk_closew k w
  end.
Fixpoint fcalls_run (c : fcfg) (k : fsink) (os : list fcall) : fsink :=
  match os with [] => k | o :: os => fcalls_run c (fst (fcall_run c k o)) os end.
Definition call_entry (o : fcall) : option entry :=
  match o with CMkdir e | CSymlink e _ | CGetWriter e | CPreallocate e => Some e | _ => None end.

(** What an observer finds at a location (without following symlinks there). *)
Inductive seen := SDir (mode : Z) | SLink (t : bytes) | SFile (content : bytes) (mode : Z).
Definition look (s : fsys) (l : loc) : option seen :=
  match f_tree s l with
  | None => None
  | Some (FDir m) => Some (SDir m)
  | Some (FLink t) => Some (SLink t)
  | Some (FFile i) => Some (SFile (i_data (f_ino s i)) (i_mode (f_ino s i)))
  end.

(** Location of Directory, and of an entry in it, read lexically. *)
Definition fbase (c : fcfg) : loc := base_loc (fc_wd c) (fc_dir c).
Definition eloc (c : fcfg) (e : entry) : loc := walk (fbase c) (split_slash (en_path e)).

(** Nothing outside [base] has changed, except that missing parent directories
    of [base] may have been created. *)
Definition outside_same (base : loc) (s s' : fsys) : Prop :=
  forall l, ~ at_or_below base l ->
    look s' l = look s l \/ (at_or_below l base /\ look s l = None /\ exists m, look s' l = Some (SDir m)).

(** A fresh sink on a plain file system: Directory is given by its real path,
    without ".." after a name; no symlinks in the destination; no hard links
    between inside and outside; nothing open. *)
Definition no_dotdot_after_name (cs : list bytes) : Prop :=
  exists ups downs, cs = ups ++ downs /\ Forall (fun c => c = dot \/ c = dotdot) ups /\ Forall (fun c => c <> dotdot) downs.
Record plain (c : fcfg) (k : fsink) : Prop := {
  pl_wd : is_abs (fc_wd c) = true /\ f_wd (fk_fs k) = locate [] (fc_wd c);
  pl_dir : no_dotdot_after_name (pcomps (fc_dir c));
  pl_above : forall l t, at_or_below l (fbase c) -> f_tree (fk_fs k) l <> Some (FLink t);
  pl_below : forall l t, at_or_below (fbase c) l -> f_tree (fk_fs k) l <> Some (FLink t);
  pl_hard : forall l l' i, f_tree (fk_fs k) l = Some (FFile i) -> f_tree (fk_fs k) l' = Some (FFile i) ->
    at_or_below (fbase c) l -> at_or_below (fbase c) l';
  pl_ino : forall l i, f_tree (fk_fs k) l = Some (FFile i) -> (i < f_next (fk_fs k))%nat;
  pl_open : forall h, f_hand (fk_fs k) h = None }.

(** No system call fails (from now on). *)
Definition no_fault (s : fsys) : Prop := forall n, f_orc s n = None.
(** The operating system never reports savior's own ErrPathTraversal. *)
Definition os_errors (s : fsys) : Prop := forall n f, f_orc s n = Some f -> fl_err f <> ETraversal.

(** A location that can be got at: everything above is a folder, or missing; a
    file there has no other hard links. (And the file system is a tree, inode
    and descriptor numbers are used in order.) *)
Record approachable (k : fsink) (l : loc) : Prop := {
  ap_root : exists m, f_tree (fk_fs k) [] = Some (FDir m);
  ap_tree : forall l' q, f_tree (fk_fs k) l' <> None -> at_or_below q l' -> q <> l' -> exists m, f_tree (fk_fs k) q = Some (FDir m);
  ap_above : forall q n, at_or_below q l -> q <> l -> f_tree (fk_fs k) q = Some n -> exists m, n = FDir m;
  ap_hard : forall l' i, f_tree (fk_fs k) l = Some (FFile i) -> f_tree (fk_fs k) l' = Some (FFile i) -> l' = l;
  ap_ino : forall l' i, f_tree (fk_fs k) l' = Some (FFile i) -> (i < f_next (fk_fs k))%nat;
  ap_ws : forall w h, fk_ws k w = Some (Some h) -> (h < f_nexth (fk_fs k))%nat }.

(** Nothing but [l] has changed, except that missing folders above it may have
    been created. *)
Definition only_changed (l : loc) (s s' : fsys) : Prop :=
  forall q, q <> l -> look s' q = look s q \/ (at_or_below q l /\ look s q = None /\ exists m, look s' q = Some (SDir m)).

(** content of the file at l, empty if there is none *)
Definition file_content (s : fsys) (l : loc) : bytes := match look s l with Some (SFile d _) => d | _ => [] end.

(** A sequence of writes to a writer (and syncs: [None]): the bytes that the
    writer took, and by how much it advanced the entry's WriteOffset. *)
Fixpoint write_all (k : fsink) (w : option nat) (os : list (option bytes)) : fsink * bytes * Z :=
  match os with
  | [] => (k, [], 0)
  | Some d :: os =>
      let '(k1, (n, adv, _)) := fk_write k w d in
      let '(k2, t, a) := write_all k1 w os in (k2, firstn n d ++ t, adv + a)
  | None :: os => write_all (fst (fk_sync k w)) w os
  end.
