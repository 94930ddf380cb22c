(** Windows.v -- FolderSink.Symlink on Windows (folder_sink.go:30 onWindows =
    true): symlinks become regular files.
    Simplification: paths and the file system are those of FS.v (slashes, no
    drive letters, no reserved names), so that this is about what the branch
    taken on Windows does, not about Windows paths. *)
From Verif Require Import Base Path Source Sink FS FolderSink.

(** folder_sink.go:112-150 createFile on Windows: no Chmod (:141) *)
Definition create_file_win (c : fcfg) (s : fsys) (e : entry) : fsys * res nat :=
  match dest_path (fc_wd c) (fc_dir c) (en_path e) with
  | Err er => (s, Err er)
  | Ok dst =>
      let '(s, er) := os_mkdir_all s (path_dir dst) lucky_mode in
      match er with
      | Some x => (s, Err (with_stack x))
      | None =>
          let '(s, st) := os_lstat s dst in
          let '(s, er) := match st with
                          | Ok n => if is_link n then os_remove_all s dst else (s, None)
                          | _ => (s, None)
                          end in
          match er with
          | Some x => (s, Err (with_stack x))
          | None =>
              let '(s, f) := os_open_create s dst (Z.lor (en_mode e) mode_mask) in
              match f with
              | Err x => (s, Err (with_stack x))
              | _ => (s, f)
              end
          end
      end
  | Panic => (s, Panic) | Hang => (s, Hang)
  end.

(** folder_sink.go:152-191 GetWriter, with createFile as on Windows *)
Definition fk_getw_win (c : fcfg) (k : fsink) (e : entry) : fsink * res (option nat) :=
  if should_ignore (en_path e) then (k, Ok None)
  else
    let '(s, f) := create_file_win c (fk_fs k) e in
    match f with
    | Ok h =>
        let '(s, er) := if 0 <? en_woff e then f_seek s h (en_woff e) else (s, None) in
        match er with
        | Some x => (set_fs k s, Err (with_stack x))
        | None =>
            let '(s, er) := f_truncate s h (en_woff e) in
            match er with
            | Some x => (set_fs k s, Err (with_stack x))
            | None =>
                let '(k, _) := fk_close (set_fs k s) in
                let w := fk_nextw k in
                (MkFsk (fk_fs k) (Some w) (fun j => if Nat.eqb j w then Some (Some h) else fk_ws k j) (S w), Ok (Some w))
            end
        end
    | Err x => (set_fs k s, Err (with_stack x))
    | Panic => (set_fs k s, Panic) | Hang => (set_fs k s, Hang)
    end.

(** folder_sink.go:239-259 Symlink on Windows: GetWriter, Write the target,
    and (deferred, its error dropped) Close of the writer *)
Definition fk_symlink_win (c : fcfg) (k : fsink) (e : entry) (t : bytes) : fsink * option gerr :=
  if should_ignore (en_path e) then (k, None)
  else
    let '(k, r) := fk_getw_win c k e in
    match r with
    | Ok w =>
        let '(k, (_, _, er)) := fk_write k w t in
        let '(k, _) := fk_closew k w in
        (k, option_map with_stack er)
    | Err x => (k, Some (with_stack x))
    | _ => (k, Some EIO)
    end.
