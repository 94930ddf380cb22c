(** FolderSink.v -- model of folder_sink.go (on Unix: onWindows = false) *)
From Verif Require Import Base Path Source Sink FS.

(** folder_sink.go:32-37 FolderSink, with the settings it is used with:
    fc_wd = os.Getwd(), fc_dir = Directory, fc_legacy = EnableLegacyPreallocate (:17) *)
Record fcfg := MkFcfg { fc_wd : bytes; fc_dir : bytes; fc_legacy : bool }.

(** The sink and its file system. [fk_writer]: fs.writer. [fk_ws]: the
    entryWriter objects made so far: Some (Some h): ew.f is descriptor h,
    Some None: ew.f = nil. *)
Record fsink := MkFsk {
  fk_fs : fsys; fk_writer : option nat; fk_ws : nat -> option (option nat); fk_nextw : nat }.
Definition set_fs (k : fsink) (s : fsys) : fsink := MkFsk s (fk_writer k) (fk_ws k) (fk_nextw k).

(** folder_sink.go:19-28 *)
Definition mode_mask : Z := 438.  (* 0666 *)
Definition lucky_mode : Z := 511. (* 0777 *)
Definition dir_mode : Z := 493.   (* 0755 *)

(** folder_sink.go:75-110 Mkdir *)
Definition fk_mkdir (c : fcfg) (k : fsink) (e : entry) : fsink * option gerr :=
  if should_ignore (en_path e) then (k, None)
  else match dest_path (fc_wd c) (fc_dir c) (en_path e) with
       | Err er => (k, Some er)
       | Ok dst =>
           let '(s, st) := os_lstat (fk_fs k) dst in
           match st with
           | Ok n =>
               if is_dir n then (set_fs k s, None)
               else let '(s, er) := os_remove s dst in
                    match er with
                    | Some x => (set_fs k s, Some (with_stack x))
                    | None =>
                        let '(s, er) := os_mkdir_all s dst dir_mode in
                        (set_fs k s, option_map with_stack er)
                    end
           | _ =>
               let '(s, er) := os_mkdir_all s dst dir_mode in
               (set_fs k s, option_map with_stack er)
           end
       | _ => (k, Some EIO)
       end.

(** folder_sink.go:112-150 createFile: the descriptor of the opened file *)
Definition create_file (c : fcfg) (s : fsys) (e : entry) : fsys * res nat :=
  match dest_path (fc_wd c) (fc_dir c) (en_path e) with
  | Err er => (s, Err er)
  | Ok dst =>
      let '(s, er) := os_mkdir_all s (path_dir dst) lucky_mode in
      match er with
      | Some x => (s, Err (with_stack x))
      | None =>
          let '(s, st) := os_lstat s dst in
          let '(s, er) := match st with
                          | Ok n => if is_link n then os_remove_all s dst else (s, None)
                          | _ => (s, None)
                          end in
          match er with
          | Some x => (s, Err (with_stack x))
          | None =>
              let mode := Z.lor (en_mode e) mode_mask in
              let '(s, f) := os_open_create s dst mode in
              match f with
              | Ok h =>
                  match st with
                  | Ok _ => let '(s, er) := f_chmod s h mode in
                            match er with Some x => (s, Err (with_stack x)) | None => (s, Ok h) end
                  | _ => (s, Ok h)
                  end
              | Err x => (s, Err (with_stack x))
              | _ => (s, f)
              end
          end
      end
  | Panic => (s, Panic) | Hang => (s, Hang)
  end.

(** folder_sink.go:344-357 entryWriter.Close, for the writer object [w] *)
Definition fk_closew_ (k : fsink) (w : nat) : fsink * option gerr :=
  match fk_ws k w with
  | Some (Some h) =>
      let '(s, er) := f_close (fk_fs k) h in
      (MkFsk s (fk_writer k) (fun j => if Nat.eqb j w then Some None else fk_ws k j) (fk_nextw k), option_map with_stack er)
  | _ => (k, None)
  end.

(** folder_sink.go:316-324 Close *)
Definition fk_close (k : fsink) : fsink * option gerr :=
  match fk_writer k with
  | Some w =>
      let '(k, er) := fk_closew_ k w in
      (MkFsk (fk_fs k) None (fk_ws k) (fk_nextw k), er)
  | None => (k, None)
  end.

(** folder_sink.go:152-191 GetWriter. A writer: None is a nopEntryWriter. *)
Definition fk_getw (c : fcfg) (k : fsink) (e : entry) : fsink * res (option nat) :=
  if should_ignore (en_path e) then (k, Ok None)
  else
    let '(s, f) := create_file c (fk_fs k) e in
    match f with
    | Ok h =>
        let '(s, er) := if 0 <? en_woff e then f_seek s h (en_woff e) else (s, None) in
        match er with
        | Some x => (set_fs k s, Err (with_stack x))
        | None =>
            let '(s, er) := f_truncate s h (en_woff e) in
            match er with
            | Some x => (set_fs k s, Err (with_stack x))
            | None =>
                let '(k, _) := fk_close (set_fs k s) in    (* an error is only logged *)
                let w := fk_nextw k in
                (MkFsk (fk_fs k) (Some w) (fun j => if Nat.eqb j w then Some (Some h) else fk_ws k j) (S w), Ok (Some w))
            end
        end
    | Err x => (set_fs k s, Err (with_stack x))
    | Panic => (set_fs k s, Panic) | Hang => (set_fs k s, Hang)
    end.

(** folder_sink.go:222-237 legacyPreallocate: seek to the end, write zeros
    (io.CopyN's chunks are one write here; a fault may hit after any byte) *)
Definition legacy_preallocate (s : fsys) (h : nat) (size : Z) : fsys * option gerr :=
  match f_hand s h with
  | None => (s, Some EClosed)
  | Some x =>
      let len := length (i_data (f_ino s (h_ino x))) in
      let '(s, er) := f_seek s h (Z.of_nat len) in
      match er with
      | Some y => (s, Some (with_stack y))
      | None =>
          if 0 <? size - Z.of_nat len then
            let '(s, (_, er)) := f_write s h (repeat zero (Z.to_nat (size - Z.of_nat len))) in
            (s, option_map with_stack er)
          else (s, None)
      end
  end.

(** folder_sink.go:193-220 Preallocate *)
Definition fk_prealloc (c : fcfg) (k : fsink) (e : entry) : fsink * option gerr :=
  if should_ignore (en_path e) then (k, None)
  else
    let '(s, f) := create_file c (fk_fs k) e in
    match f with
    | Ok h =>
        let '(s, er) :=
          if 0 <? en_usize e then
            if fc_legacy c then legacy_preallocate s h (en_usize e) else ox_preallocate s h (en_usize e)
          else (s, None) in
        let '(s, _) := f_close s h in      (* deferred *)
        (set_fs k s, er)
    | Err x => (set_fs k s, Some (with_stack x))
    | _ => (set_fs k s, Some EIO)
    end.

(** folder_sink.go:239-304 Symlink *)
Definition fk_symlink (c : fcfg) (k : fsink) (e : entry) (t : bytes) : fsink * option gerr :=
  if should_ignore (en_path e) then (k, None)
  else match dest_path (fc_wd c) (fc_dir c) (en_path e) with
       | Err er => (k, Some er)
       | Ok dst =>
           match check_link (fc_wd c) (fc_dir c) dst t with
           | Err er => (k, Some er)
           | _ =>
               let '(s, er) := os_remove_all (fk_fs k) dst in
               match er with
               | Some x => (set_fs k s, Some (with_stack x))
               | None =>
                   let '(s, er) := os_mkdir_all s (path_dir dst) lucky_mode in
                   match er with
                   | Some x => (set_fs k s, Some (with_stack x))
                   | None =>
                       let '(s, er) := os_symlink s t dst in
                       (set_fs k s, option_map with_stack er)
                   end
               end
           end
       | _ => (k, Some EIO)
       end.

(** folder_sink.go:306-314 Nuke *)
Definition fk_nuke (c : fcfg) (k : fsink) : fsink * option gerr :=
  let '(k, er) := fk_close k in
  match er with
  | Some x => (k, Some (with_stack x))
  | None => let '(s, er) := os_remove_all (fk_fs k) (fc_dir c) in (set_fs k s, er)
  end.

(** folder_sink.go:334-342 entryWriter.Write, nop_sink.go:55-57: bytes written,
    change of entry.WriteOffset, error *)
Definition fk_write (k : fsink) (w : option nat) (d : bytes) : fsink * (nat * Z * option gerr) :=
  match w with
  | None => (k, (length d, 0, None))
  | Some w =>
      match fk_ws k w with
      | Some (Some h) =>
          let '(s, (n, er)) := f_write (fk_fs k) h d in
          (set_fs k s, (n, Z.of_nat n, er))
      | _ => (k, (O, 0, Some EClosed))
      end
  end.

(** folder_sink.go:359-365 entryWriter.Sync, nop_sink.go:63-65 *)
Definition fk_sync (k : fsink) (w : option nat) : fsink * option gerr :=
  match w with
  | None => (k, None)
  | Some w =>
      match fk_ws k w with
      | Some (Some h) => let '(s, er) := f_sync (fk_fs k) h in (set_fs k s, er)
      | _ => (k, Some EClosed)
      end
  end.

Definition fk_closew (k : fsink) (w : option nat) : fsink * option gerr :=
  match w with None => (k, None) | Some w => fk_closew_ k w end.

(** folder_sink.go:39 FolderSink is a Sink *)
Definition folder_sink (c : fcfg) : sink := {|
  k_st := fsink; k_w := option nat;
  k_mkdir := fk_mkdir c; k_symlink := fk_symlink c; k_getw := fk_getw c; k_prealloc := fk_prealloc c;
  k_nuke := fk_nuke c; k_close := fk_close; k_write := fk_write; k_sync := fk_sync; k_closew := fk_closew |}.
