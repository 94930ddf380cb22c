(** FS.v -- a Unix file system, and the functions of Go's package os that
    FolderSink calls. This is not code of savior: it is the environment it
    runs in, written from the documentation of Linux and of package os.

    Simplifications: one process; no permission checks; directory order, times
    and disk space do not exist (running out of space is a fault); a trailing
    slash in a path or link target is ignored; set-uid, set-gid and sticky
    bits are not modelled; os.Remove is only modelled for non-directories (it
    is only called right after Lstat said so). *)
From Verif Require Import Base Path.

(** A location: the names from the root down to it. *)
Definition loc := list bytes.
Fixpoint loc_eqb (a b : loc) : bool :=
  match a, b with
  | [], [] => true
  | x :: a', y :: b' => bytes_eqb x y && loc_eqb a' b'
  | _, _ => false
  end.
(** a is b or one of its ancestors *)
Fixpoint loc_pre (a b : loc) : bool :=
  match a, b with
  | [], _ => true
  | x :: a', y :: b' => bytes_eqb x y && loc_pre a' b'
  | _ :: _, [] => false
  end.

(** A directory entry; files are inode numbers. *)
Inductive fnode := FDir (mode : Z) | FLink (target : bytes) | FFile (ino : nat).
(** [i_dur]: the part of the content that would survive a power loss. *)
Record inode := MkIno { i_data : bytes; i_dur : bytes; i_mode : Z }.
(** An open file description. *)
Record handle := MkH { h_ino : nat; h_pos : nat }.

(** A failing system call: the error, and how far it got (number of bytes
    transferred; for RemoveAll which locations it had not removed yet). *)
Record fault := MkFault { fl_err : gerr; fl_n : nat; fl_keep : loc -> bool }.

(** [f_orc]: which of the coming calls fail. [f_log]: path names handed to the
    os functions so far, last first. *)
Record fsys := MkFs {
  f_tree : loc -> option fnode;
  f_ino : nat -> inode; f_next : nat;
  f_hand : nat -> option handle; f_nexth : nat;
  f_wd : loc; f_umask : Z;
  f_orc : nat -> option fault;
  f_log : list bytes }.

Definition with_tree (s : fsys) t := MkFs t (f_ino s) (f_next s) (f_hand s) (f_nexth s) (f_wd s) (f_umask s) (f_orc s) (f_log s).
Definition with_ino (s : fsys) i := MkFs (f_tree s) i (f_next s) (f_hand s) (f_nexth s) (f_wd s) (f_umask s) (f_orc s) (f_log s).
Definition with_next (s : fsys) n := MkFs (f_tree s) (f_ino s) n (f_hand s) (f_nexth s) (f_wd s) (f_umask s) (f_orc s) (f_log s).
Definition with_hand (s : fsys) h n := MkFs (f_tree s) (f_ino s) (f_next s) h n (f_wd s) (f_umask s) (f_orc s) (f_log s).
Definition with_orc (s : fsys) o := MkFs (f_tree s) (f_ino s) (f_next s) (f_hand s) (f_nexth s) (f_wd s) (f_umask s) o (f_log s).
Definition with_log (s : fsys) l := MkFs (f_tree s) (f_ino s) (f_next s) (f_hand s) (f_nexth s) (f_wd s) (f_umask s) (f_orc s) l.

Definition set_node (s : fsys) (l : loc) (n : option fnode) : fsys :=
  with_tree s (fun l' => if loc_eqb l' l then n else f_tree s l').
Definition set_ino (s : fsys) (i : nat) (n : inode) : fsys :=
  with_ino s (fun j => if Nat.eqb j i then n else f_ino s j).
Definition set_hand (s : fsys) (h : nat) (x : option handle) : fsys :=
  with_hand s (fun j => if Nat.eqb j h then x else f_hand s j) (f_nexth s).

(** every system call first consults the fault oracle *)
Definition tick (s : fsys) : fsys * option fault :=
  (with_orc s (fun n => f_orc s (S n)), f_orc s 0%nat).
Definition logged (s : fsys) (p : bytes) : fsys := with_log s (p :: f_log s).

(** ** Path name resolution *)

Definition pcomps (p : bytes) : list bytes := filter (fun c => negb (bytes_eqb c [])) (split_slash p).

(** [resolve s follow n cur cs]: path_resolution(7) of the components [cs] from
    directory [cur], following at most [n] symlinks, and one in the last
    component only if [follow]. The result may be a location with nothing at it
    (in an existing directory). *)
Fixpoint resolve (s : fsys) (follow : bool) (n : nat) : loc -> list bytes -> res loc :=
  fix go (cur : loc) (cs : list bytes) {struct cs} : res loc :=
    match cs with
    | [] => Ok cur
    | c :: cs' =>
        if bytes_eqb c dot then go cur cs'
        else if bytes_eqb c dotdot then go (removelast cur) cs'
        else
          let l := cur ++ [c] in
          let final := match cs' with [] => true | _ => false end in
          match f_tree s l with
          | Some (FDir _) => go l cs'
          | Some (FFile _) => if final then Ok l else Err ENotDir
          | None => if final then Ok l else Err ENoEnt
          | Some (FLink t) =>
              if final && negb follow then Ok l
              else match n with
                   | O => Err ELoop
                   | S n' => resolve s follow n' (if is_abs t then [] else cur) (pcomps t ++ cs')
                   end
          end
    end.

(** Linux gives up after 40 symlinks *)
Definition max_links : nat := 40.
Definition resolve_path (s : fsys) (follow : bool) (p : bytes) : res loc :=
  resolve s follow max_links (if is_abs p then [] else f_wd s) (pcomps p).

(** ** System calls *)

(** lstat(2) (follow = false), stat(2) (follow = true) *)
Definition sys_stat (s : fsys) (follow : bool) (p : bytes) : fsys * res fnode :=
  let '(s, fl) := tick s in
  match fl with
  | Some f => (s, Err (fl_err f))
  | None =>
      match resolve_path s follow p with
      | Ok l => match f_tree s l with Some n => (s, Ok n) | None => (s, Err ENoEnt) end
      | Err e => (s, Err e)
      | _ => (s, Err EIO)
      end
  end.

(** mkdir(2) *)
Definition sys_mkdir (s : fsys) (p : bytes) (mode : Z) : fsys * option gerr :=
  let '(s, fl) := tick s in
  match fl with
  | Some f => (s, Some (fl_err f))
  | None =>
      match resolve_path s false p with
      | Ok l => match f_tree s l with
                | Some _ => (s, Some EExist)
                | None => (set_node s l (Some (FDir (Z.land mode (Z.lnot (f_umask s))))), None)
                end
      | Err e => (s, Some e)
      | _ => (s, Some EIO)
      end
  end.

(** ** Functions of package os *)

Definition is_dir (n : fnode) : bool := match n with FDir _ => true | _ => false end.
Definition is_link (n : fnode) : bool := match n with FLink _ => true | _ => false end.

(** os.Lstat *)
Definition os_lstat (s : fsys) (p : bytes) : fsys * res fnode := sys_stat (logged s p) false p.

(** os.MkdirAll: Stat; if there is nothing, first the parent, then Mkdir (and
    if that fails, Lstat). [rcs]: components of a cleaned absolute path, last
    first. *)
Fixpoint mkdir_all (s : fsys) (rcs : list bytes) (mode : Z) : fsys * option gerr :=
  let p := slash :: join_slash (rev rcs) in
  let '(s, r) := sys_stat s true p in
  match r with
  | Ok n => if is_dir n then (s, None) else (s, Some ENotDir)
  | _ =>
      let '(s, e) := match rcs with
                     | _ :: (_ :: _) as rcs' => mkdir_all s rcs' mode
                     | _ => (s, None)
                     end in
      match e with
      | Some _ => (s, e)
      | None =>
          let '(s, e) := sys_mkdir s p mode in
          match e with
          | None => (s, None)
          | Some _ =>
              let '(s, r) := sys_stat s false p in
              match r with
              | Ok n => if is_dir n then (s, None) else (s, e)
              | _ => (s, e)
              end
          end
      end
  end.
Definition os_mkdir_all (s : fsys) (p : bytes) (mode : Z) : fsys * option gerr :=
  mkdir_all (logged s p) (rev (pcomps p)) mode.

(** os.Remove of something that is not a directory *)
Definition os_remove (s : fsys) (p : bytes) : fsys * option gerr :=
  let '(s, fl) := tick (logged s p) in
  match fl with
  | Some f => (s, Some (fl_err f))
  | None =>
      match resolve_path s false p with
      | Ok l => match f_tree s l with
                | Some (FDir _) => (s, Some EExist)
                | Some _ => (set_node s l None, None)
                | None => (s, Some ENoEnt)
                end
      | Err e => (s, Some e)
      | _ => (s, Some EIO)
      end
  end.

(** remove what is at or below [l], except what [keep] says *)
Definition prune (s : fsys) (l : loc) (keep : loc -> bool) : fsys :=
  with_tree s (fun l' => if loc_pre l l' && negb (keep l') then None else f_tree s l').
(** a removal that stopped halfway leaves l' if it left all of its parents *)
Definition left_over (k : loc -> bool) (l l' : loc) : bool :=
  forallb (fun i => k (firstn i l')) (seq (length l) (S (length l' - length l))).

Definition ends_with_dot (p : bytes) : bool :=
  bytes_eqb p dot || match rev p with a :: b :: _ => beqb a "."%char && beqb b slash | _ => false end.

(** os.RemoveAll. "" is accepted and nothing is done; "." at the end is
    refused; the root, or "..", is emptied but cannot be removed. *)
Definition os_remove_all (s : fsys) (p : bytes) : fsys * option gerr :=
  let s := logged s p in
  match p with
  | [] => (s, None)
  | _ =>
      if ends_with_dot p then (s, Some EInval)
      else
        let '(s, fl) := tick s in
        match resolve_path s false p with
        | Err e => match fl with
                   | Some f => (s, Some (fl_err f))
                   | None => (s, match e with ENoEnt => None | _ => Some e end)
                   end
        | Ok l =>
            match fl with
            | Some f => (prune s l (left_over (fl_keep f) l), Some (fl_err f))
            | None =>
                if bytes_eqb (List.last (pcomps p) []) dotdot || match l with [] => true | _ => false end
                then (prune s l (fun l' => loc_eqb l' l), Some EInval)
                else (prune s l (fun _ => false), None)
            end
        | _ => (s, Some EIO)
        end
  end.

(** os.Symlink *)
Definition os_symlink (s : fsys) (target p : bytes) : fsys * option gerr :=
  let '(s, fl) := tick (logged s p) in
  match fl with
  | Some f => (s, Some (fl_err f))
  | None =>
      match resolve_path s false p with
      | Ok l => match f_tree s l with
                | Some _ => (s, Some EExist)
                | None => (set_node s l (Some (FLink target)), None)
                end
      | Err e => (s, Some e)
      | _ => (s, Some EIO)
      end
  end.

(** permission bits of an os.FileMode *)
Definition perm (m : Z) : Z := Z.land m 511.

(** os.OpenFile(p, O_CREATE|O_WRONLY, mode): the file descriptor *)
Definition os_open_create (s : fsys) (p : bytes) (mode : Z) : fsys * res nat :=
  let '(s, fl) := tick (logged s p) in
  match fl with
  | Some f => (s, Err (fl_err f))
  | None =>
      match resolve_path s true p with
      | Ok l =>
          let opened s i :=
            (with_hand s (fun j => if Nat.eqb j (f_nexth s) then Some (MkH i 0) else f_hand s j) (S (f_nexth s)),
             Ok (f_nexth s)) in
          match f_tree s l with
          | Some (FFile i) => opened s i
          | Some _ => (s, Err EIsDir)
          | None =>
              let i := f_next s in
              let s := set_ino s i (MkIno [] [] (Z.land (perm mode) (Z.lnot (f_umask s)))) in
              let s := set_node s l (Some (FFile i)) in
              opened (with_next s (S i)) i
          end
      | Err e => (s, Err e)
      | _ => (s, Err EIO)
      end
  end.

(** Calls on an open file. A closed or unknown descriptor: os.ErrClosed. *)
Definition on_file {A} (s : fsys) (h : nat) (bad : gerr -> A) (k : fsys -> handle -> option fault -> fsys * A) : fsys * A :=
  match f_hand s h with
  | None => (s, bad EClosed)
  | Some x => let '(s, fl) := tick s in k s x fl
  end.

(** (os.File).Chmod *)
Definition f_chmod (s : fsys) (h : nat) (mode : Z) : fsys * option gerr :=
  on_file s h Some (fun s x fl =>
    match fl with
    | Some f => (s, Some (fl_err f))
    | None => let i := f_ino s (h_ino x) in (set_ino s (h_ino x) (MkIno (i_data i) (i_dur i) (perm mode)), None)
    end).

(** (os.File).Seek(off, io.SeekStart) *)
Definition f_seek (s : fsys) (h : nat) (off : Z) : fsys * option gerr :=
  on_file s h Some (fun s x fl =>
    match fl with
    | Some f => (s, Some (fl_err f))
    | None => if off <? 0 then (s, Some EInval) else (set_hand s h (Some (MkH (h_ino x) (Z.to_nat off))), None)
    end).

(** the first n bytes, filled up with zeros *)
Definition zfit (n : nat) (d : bytes) : bytes := firstn n d ++ repeat zero (n - length d).

(** (os.File).Truncate *)
Definition f_truncate (s : fsys) (h : nat) (n : Z) : fsys * option gerr :=
  on_file s h Some (fun s x fl =>
    match fl with
    | Some f => (s, Some (fl_err f))
    | None =>
        if n <? 0 then (s, Some EInval)
        else let i := f_ino s (h_ino x) in
             (set_ino s (h_ino x) (MkIno (zfit (Z.to_nat n) (i_data i)) (firstn (Z.to_nat n) (i_dur i)) (i_mode i)), None)
    end).

(** d written into c at position pos *)
Definition overwrite (c : bytes) (pos : nat) (d : bytes) : bytes :=
  zfit pos c ++ d ++ skipn (pos + length d) c.

(** (os.File).Write: all of it, or an error after some of it *)
Definition f_write (s : fsys) (h : nat) (d : bytes) : fsys * (nat * option gerr) :=
  on_file s h (fun e => (O, Some e)) (fun s x fl =>
    let d' := match fl with Some f => firstn (fl_n f) d | None => d end in
    let i := f_ino s (h_ino x) in
    let s := match d' with
             | [] => s
             | _ => set_hand (set_ino s (h_ino x) (MkIno (overwrite (i_data i) (h_pos x) d') (i_dur i) (i_mode i)))
                      h (Some (MkH (h_ino x) (h_pos x + length d')))
             end in
    (s, (length d', match fl with Some f => Some (fl_err f) | None => None end))).

(** (os.File).Sync *)
Definition f_sync (s : fsys) (h : nat) : fsys * option gerr :=
  on_file s h Some (fun s x fl =>
    match fl with
    | Some f => (s, Some (fl_err f))
    | None => let i := f_ino s (h_ino x) in (set_ino s (h_ino x) (MkIno (i_data i) (i_data i) (i_mode i)), None)
    end).

(** (os.File).Close: the descriptor is gone even if an error is reported *)
Definition f_close (s : fsys) (h : nat) : fsys * option gerr :=
  on_file s h Some (fun s x fl =>
    (set_hand s h None, match fl with Some f => Some (fl_err f) | None => None end)).

(** ox.Preallocate(f, size), package github.com/itchio/ox (assumption: it makes
    a shorter file longer with zeros, not always as far as asked if it fails,
    and does nothing to a longer one). *)
Definition ox_preallocate (s : fsys) (h : nat) (size : Z) : fsys * option gerr :=
  on_file s h Some (fun s x fl =>
    let i := f_ino s (h_ino x) in
    let n := Nat.sub (match fl with Some f => Nat.min (fl_n f) (Z.to_nat size) | None => Z.to_nat size end) (length (i_data i)) in
    (set_ino s (h_ino x) (MkIno (i_data i ++ repeat zero n) (i_dur i) (i_mode i)),
     match fl with Some f => Some (fl_err f) | None => None end)).
