(** Zip.v -- model of zipextractor/zipextractor.go. *)
From Verif Require Import Base Source Seek Decomp Drive Path Copier Sink.

(** The fields of a *zip.File (arkive/zip, external) that savior uses.
    [zf_mode] is zf.Mode() (os.FileMode bits), which FileInfo().IsDir() also
    looks at. *)
Record zfile := MkZf {
  zf_name : bytes; zf_csize : Z; zf_usize : Z; (* uint64 *)
  zf_mode : Z; zf_flags : Z; zf_method : Z }.

Definition zip_store : Z := 0.      (* zip.Store *)
Definition zip_deflate : Z := 8.    (* zip.Deflate *)
Definition zip_lzma : Z := 14.      (* zip.LZMA *)
Definition mode_dir_bit : Z := 31.      (* os.ModeDir = 1<<31 *)
Definition mode_symlink_bit : Z := 27.  (* os.ModeSymlink = 1<<27 *)

(** zipextractor.go:368-386 zipFileEntry (filepath.ToSlash is the identity
    except on Windows) *)
Definition zip_entry_of (zf : zfile) : entry :=
  MkEntry (zf_name zf)
    (if Z.testbit (zf_mode zf) mode_dir_bit then EkDir
     else if Z.testbit (zf_mode zf) mode_symlink_bit then EkSymlink else EkFile)
    (zf_mode zf) (wrap64 (zf_csize zf)) (wrap64 (zf_usize zf)) 0 [].

(** zipextractor.go:86-98 normalizeBackslashNames *)
Fixpoint zip_normalize (files : list zfile) : res (list zfile) :=
  match files with
  | [] => Ok []
  | f :: fs =>
      let go f' := match zip_normalize fs with Ok fs' => Ok (f' :: fs') | r => r end in
      match zf_name f with
      | [] => go f
      | _ =>
          let name := replace_backslashes (zf_name f) in
          if is_local name
          then go (MkZf name (zf_csize f) (zf_usize f) (zf_mode f) (zf_flags f) (zf_method f))
          else Err EInsecure
      end
  end.

(** extractor.go:83-95 *)
Inductive resume_support := RsNone | RsEntry | RsBlock.

(** zipextractor.go:73-81 *)
Definition zip_support (files : list zfile) : resume_support :=
  fold_left (fun s f => if zf_method f =? zip_lzma then RsEntry else s) files RsBlock.

(** zipextractor.go:52-84 NewWithParams, given what zip.NewReader returned: the
    directory listing and possibly an error *)
Definition zip_new (files : list zfile) (nerr : option gerr) (normalize : bool) : res (list zfile * resume_support) :=
  let finish fs := Ok (fs, zip_support fs) in
  match nerr with
  | None => finish files
  | Some e =>
      if normalize && gerr_eqb e EInsecure then
        match zip_normalize files with
        | Ok fs => finish fs
        | Err e' => Err (with_stack e')
        | Panic => Panic | Hang => Hang
        end
      else Err (with_stack e)
  end.

(** zipextractor.go:360-366 Entries *)
Definition zip_entries (files : list zfile) : list entry := map zip_entry_of files.

(** What the extractor gets from the archive while it works on one entry:
    zf.DataOffset(), io.NewSectionReader(ze.reader, off, n) and zf.Open() (the
    chunks its reader delivers and the error it ends with, None for io.EOF). *)
Record zio := MkZio {
  zi_dataoff : res Z;
  zi_section : Z -> Z -> rstate;
  zi_open : res (list bytes * option gerr) }.

Section Zip.
  Context (SK : sink) (C : codec) (fuel0 : nat).
  (** flatesource over a seeksource, and a bare seeksource *)
  Definition zk_deflate : stk := KDec C flate_cfg fuel0 KSeek.
  Definition zck : Type := s_ck (stk_source zk_deflate).
  Definition zeck : Type := eckpt zck unit.
  Context (SV : saver zck unit).

  (** State of a run: the sink, the checkpoint object, the save consumer,
      copier.stop, whether stopError is set, the values given to
      consumer.Progress, and a record (not part of the program) of every
      checkpoint passed to Save with the state of the sink at that time. *)
  Record zx := MkZx {
    x_sink : k_st SK; x_ck : zeck; x_sv : sv_st SV; x_stop : bool; x_stoperr : bool;
    x_prog : list (option Q); x_log : list (zeck * k_st SK) }.
  Definition zx_sink (x : zx) (s : k_st SK) : zx := MkZx s (x_ck x) (x_sv x) (x_stop x) (x_stoperr x) (x_prog x) (x_log x).
  Definition zx_ck (x : zx) (c : zeck) : zx := MkZx (x_sink x) c (x_sv x) (x_stop x) (x_stoperr x) (x_prog x) (x_log x).
  Definition zx_sv (x : zx) (v : sv_st SV) : zx := MkZx (x_sink x) (x_ck x) v (x_stop x) (x_stoperr x) (x_prog x) (x_log x).
  Definition zx_stop (x : zx) (b : bool) : zx := MkZx (x_sink x) (x_ck x) (x_sv x) b (x_stoperr x) (x_prog x) (x_log x).

  Definition ck_woff (c : zeck) : Z := match ec_entry c with Some e => en_woff e | None => 0 end.
  Definition ck_set_woff (c : zeck) (w : Z) : zeck :=
    MkEck (ec_src c) (ec_index c) (option_map (fun e => set_woff e w) (ec_entry c)) (ec_prog c) (ec_data c).

  (** zipextractor.go:276-279 computeProgress. float64 division: NaN or an
      infinity if totalBytes is 0. *)
  Definition zip_progress (done total : Z) (c : zeck) : option Q :=
    let a := wrap64 (done + ck_woff c) in
    match total with
    | Z0 => None
    | Zpos p => Some (a # p)%Q
    | Zneg p => Some (- a # p)%Q
    end.

  (** zipextractor.go:282-306 OnSave; [inj]: the source's checkpoint as an
      ExtractorCheckpoint.SourceCheckpoint *)
  Definition zip_on_save {CK} (inj : sckpt CK -> sckpt zck) (w : k_w SK) (done total : Z) : callback CK zx :=
    fun sc x =>
      let c := x_ck x in
      let c1 := MkEck (Some (inj sc)) (ec_index c) (ec_entry c) (ec_prog c) (ec_data c) in
      match k_sync SK (x_sink x) w with
      | (s', Some e) => (zx_ck (zx_sink x s') c1, CErr (with_stack e))
      | (s', None) =>
          let c2 := MkEck (ec_src c1) (ec_index c1) (ec_entry c1) (zip_progress done total c1) (ec_data c1) in
          match sv_save SV (x_sv x) c2 with
          | (v', r) =>
              let x2 := MkZx s' c2 v' (x_stop x) (x_stoperr x) (x_prog x) (x_log x ++ [(c2, s')]) in
              match r with
              | inr e => (x2, CErr (with_stack e))
              | inl true => (MkZx s' c2 v' true true (x_prog x) (x_log x ++ [(c2, s')]), COk)
              | inl false => (x2, COk)
              end
          end
      end.

  (** zipextractor.go:309-319: the parameters given to copier.Do. The write is
      entry.WriteOffset-advancing, see Sink.v. *)
  Definition zip_cenv (S : source) (inj : sckpt (s_ck S) -> sckpt zck) (w : k_w SK) (done total : Z)
      : cenv (s_st S * zx) := {|
    ce_read := fun sx n =>
      let '(src', x', r) := s_read S (zip_on_save inj w done total) (fst sx) (snd sx) n in ((src', x'), r);
    ce_write := fun sx d =>
      let x := snd sx in
      let '(s', (n, adv, e)) := k_write SK (x_sink x) w d in
      ((fst sx, zx_ck (zx_sink x s') (ck_set_woff (x_ck x) (ck_woff (x_ck x) + adv))), (n, e));
    ce_should := fun sx n =>
      let '(v', b) := sv_should SV (x_sv (snd sx)) n in ((fst sx, zx_sv (snd sx) v'), b);
    ce_want := fun sx => (s_want S (fst sx), snd sx);
    ce_emit := fun sx =>
      let x := snd sx in
      (fst sx, MkZx (x_sink x) (x_ck x) (x_sv x) (x_stop x) (x_stoperr x)
         (x_prog x ++ [zip_progress done total (x_ck x)]) (x_log x));
    ce_stopped := fun sx => x_stop (snd sx);
    ce_setstop := fun b sx => (fst sx, zx_stop (snd sx) b) |}.

  (** A save consumer is only registered after DiscardByRead
      (zipextractor.go:264, :281): this one is never called. *)
  Definition no_cb {CK} : callback CK unit := fun _ k => (k, COk).

  (** zipextractor.go:255-322: extract a file entry through a source *)
  Definition zip_copy (fuel : nat) (k : stk) (inj : sckpt (s_ck (stk_source k)) -> sckpt zck)
      (prj : sckpt zck -> sckpt (s_ck (stk_source k)))
      (rs : rstate) (csize done total : Z) (e : entry) (x : zx) : zx * res unit :=
    let S := stk_source k in
    let '(src1, r) := s_resume S (stk_new k rs 0 csize) (option_map prj (ec_src (x_ck x))) in
    match r with
    | Ok offset =>
        let '(src2, _, r2) :=
          if offset <? en_woff e then discard_by_read S no_cb fuel src1 tt (en_woff e - offset)
          else (src1, tt, Ok tt) in
        match r2 with
        | Ok _ =>
            match k_getw SK (x_sink x) e with
            | (s', Ok w) =>
                let '((_, x2), r3) :=
                  copier_do (zip_cenv S inj w done total) fuel (s_setssc S src2, zx_sink x s') in
                (x2, ws r3)
            | (s', Err e') => (zx_sink x s', Err (with_stack e'))
            | (s', Panic) => (zx_sink x s', Panic)
            | (s', Hang) => (zx_sink x s', Hang)
            end
        | Err e' => (x, Err (with_stack e'))
        | Panic => (x, Panic)
        | Hang => (x, Hang)
        end
    | Err e' => (x, Err (with_stack e'))
    | Panic => (x, Panic)
    | Hang => (x, Hang)
    end.

  (** io.Copy(writer, rc) with the chunks rc delivers *)
  Fixpoint zip_io_copy (w : k_w SK) (chunks : list bytes) (fin : option gerr) (x : zx) : zx * res unit :=
    match chunks with
    | [] => (x, match fin with None => Ok tt | Some e => Err e end)
    | d :: ds =>
        let '(s', (n, adv, e)) := k_write SK (x_sink x) w d in
        let x' := zx_ck (zx_sink x s') (ck_set_woff (x_ck x) (ck_woff (x_ck x) + adv)) in
        match e with
        | Some e => (x', Err e)
        | None => if (n =? length d)%nat then zip_io_copy w ds fin x' else (x', Err (EOther 11)) (* io.ErrShortWrite *)
        end
    end.

  Definition inj_store (c : sckpt unit) : sckpt zck := MkCk (ck_off c) None.
  Definition prj_store (c : sckpt zck) : sckpt unit := MkCk (ck_off c) None.

  (** zipextractor.go:171-328: one entry (without the final doneBytes) *)
  Definition zip_entry (io : zio) (fuel : nat) (i : Z) (zf : zfile) (done total : Z) (x : zx) : zx * res unit :=
    let c := x_ck x in
    let e := match ec_entry c with Some e => e | None => zip_entry_of zf end in
    let x1 := zx_ck x (MkEck (ec_src c) i (Some e) (ec_prog c) (ec_data c)) in
    if Z.odd (zf_flags zf) then (x1, Err EEncrypted)
    else match en_kind e with
    | EkDir =>
        let '(s', r) := k_mkdir SK (x_sink x1) e in
        (zx_sink x1 s', match r with None => Ok tt | Some e' => Err (with_stack e') end)
    | EkSymlink =>
        match zi_open io with
        | Ok (chunks, None) =>
            let '(s', r) := k_symlink SK (x_sink x1) e (concat chunks) in
            (zx_sink x1 s', match r with None => Ok tt | Some e' => Err (with_stack e') end)
        | Ok (_, Some e') => (x1, Err (with_stack e'))
        | Err e' => (x1, Err (with_stack e'))
        | Panic => (x1, Panic)
        | Hang => (x1, Hang)
        end
    | EkFile =>
        if (zf_method zf =? zip_store) || (zf_method zf =? zip_deflate) then
          match zi_dataoff io with
          | Ok off =>
              let csize := wrap64 (zf_csize zf) in
              let rs := zi_section io off csize in
              if zf_method zf =? zip_store
              then zip_copy fuel KSeek inj_store prj_store rs csize done total e x1
              else zip_copy fuel zk_deflate (fun c => c) (fun c => c) rs csize done total e x1
          | Err e' => (x1, Err (with_stack e'))
          | Panic => (x1, Panic)
          | Hang => (x1, Hang)
          end
        else
          let e0 := set_woff e 0 in
          let x2 := zx_ck x1 (MkEck (ec_src c) i (Some e0) (ec_prog c) (ec_data c)) in
          match zi_open io with
          | Ok (chunks, fin) =>
              match k_getw SK (x_sink x2) e0 with
              | (s', Ok w) => let '(x3, r) := zip_io_copy w chunks fin (zx_sink x2 s') in (x3, ws r)
              | (s', Err e') => (zx_sink x2 s', Err (with_stack e'))
              | (s', Panic) => (zx_sink x2 s', Panic)
              | (s', Hang) => (zx_sink x2 s', Hang)
              end
          | Err e' => (x2, Err (with_stack e'))
          | Panic => (x2, Panic)
          | Hang => (x2, Hang)
          end
    | EkOther _ => (x1, Ok tt)
    end.

  (** zipextractor.go:167-335 the loop over the entries from index [i] on *)
  Fixpoint zip_loop (io : nat -> zio) (fuel : nat) (files : list zfile) (i : nat) (done total : Z) (x : zx) : zx * res unit :=
    match files with
    | [] => (x, Ok tt)
    | zf :: rest =>
        if x_stoperr x then (x, Ok tt)
        else match zip_entry (io i) fuel (Z.of_nat i) zf done total x with
        | (x', Ok _) =>
            let c := x_ck x' in
            zip_loop io fuel rest (Datatypes.S i) (wrap64 (done + wrap64 (zf_usize zf))) total
              (zx_ck x' (MkEck None (ec_index c) None (ec_prog c) (ec_data c)))
        | (x', r) => (x', ws r)
        end
    end.

  (** zipextractor.go:149-157 *)
  Fixpoint zip_preallocate (files : list zfile) (s : k_st SK) : k_st SK * option gerr :=
    match files with
    | [] => (s, None)
    | zf :: rest =>
        let e := zip_entry_of zf in
        match en_kind e with
        | EkFile =>
            match k_prealloc SK s e with
            | (s', Some e') => (s', Some (with_stack e'))
            | (s', None) => zip_preallocate rest s'
            end
        | _ => zip_preallocate rest s
        end
    end.

  (** zipextractor.go:136-144 *)
  Definition sum_sizes (files : list zfile) : Z :=
    fold_left (fun a f => wrap64 (a + wrap64 (zf_usize f))) files 0.

  (** Outcome of Resume: the states of sink and save consumer, the caller's
      checkpoint object as Resume leaves it, the record of saves, the
      reported progress, the returned entries or error, and the object that
      [checkpoint] points to when Resume returns -- the one every call of Save
      was given, whether it is the caller's or (fresh runs) Resume's own. *)
  Record zout := MkZout {
    zo_sink : k_st SK; zo_sv : sv_st SV; zo_ck : option zeck;
    zo_log : list (zeck * k_st SK); zo_prog : list (option Q); zo_res : res (list entry); zo_obj : zeck }.

  (** zipextractor.go:119-347 Resume. [io]: how the archive reader behaves,
      per entry index, during this call. *)
  Definition zip_resume (files : list zfile) (io : nat -> zio) (fuel : nat)
      (c : option zeck) (s : k_st SK) (v : sv_st SV) : zout :=
    let ck := match c with Some ck => ck | None => MkEck None 0 None (Some 0%Q) None end in
    let total := sum_sizes files in
    let done := sum_sizes (firstn (Z.to_nat (ec_index ck)) files) in
    let keep x := match c with Some _ => Some x | None => None end in
    let '(s1, perr) := match c with None => zip_preallocate files s | Some _ => (s, None) end in
    match perr with
    | Some e => MkZout s1 v (keep ck) [] [] (Err e) ck
    | None =>
        if ec_index ck <? 0 then MkZout s1 v (keep ck) [] [] Panic ck
        else
        let idx := Z.to_nat (ec_index ck) in
        let '(x, r) := zip_loop io fuel (skipn idx files) idx done total (MkZx s1 ck v false false [] []) in
        MkZout (x_sink x) (x_sv x) (keep (x_ck x)) (x_log x) (x_prog x)
          (match r with
           | Ok _ => if x_stoperr x then Err EStop else Ok (zip_entries files)
           | Err e => Err e
           | Panic => Panic
           | Hang => Hang
           end) (x_ck x)
    end.
End Zip.
