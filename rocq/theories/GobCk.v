(** GobCk.v -- checkpoints as Go values, and what a program that links a
    given set of savior's packages can store and load with encoding/gob. *)
From Verif Require Import Base Source Seek Decomp Drive Sink Tar Gob.
Local Open Scope string_scope. Local Open Scope list_scope. Local Open Scope Z_scope.

(** The packages of the module that call gob.Register: savior itself, the four decompressing
    sources, tarextractor. *)
Inductive dpkg := DFlate | DGzip | DBzip2 | DBrotli.
Inductive pkg := PSavior | PDec (d : dpkg) | PTar.

(** Decomp.v: how the packages differ *)
Definition dpkg_cfg (d : dpkg) : dcfg :=
  match d with DFlate => flate_cfg | DGzip => gzip_cfg | DBzip2 => bzip2_cfg | DBrotli => brotli_cfg end.

(** The checkpoint structs of the external libraries (flate.Checkpoint, ..., tar.Checkpoint):
    their exported fields. *)
Record exts := MkExts { ext_dec : dpkg -> list (string * gty); ext_tar : list (string * gty) }.

Section Types.
  Context (X : exts).

  (** source.go:12-20 *)
  Definition sck_ty : gty := TyStruct [("Offset", TyInt); ("Data", TyIface)].

  (** sink.go:38-62 *)
  Definition entry_ty : gty :=
    TyStruct [("CanonicalPath", TyStr); ("Kind", TyInt); ("Mode", TyInt); ("CompressedSize", TyInt);
              ("UncompressedSize", TyInt); ("WriteOffset", TyInt); ("Linkname", TyStr)].

  (** extractor.go:11-17 *)
  Definition eck_ty : gty :=
    TyStruct [("SourceCheckpoint", TyPtr sck_ty); ("EntryIndex", TyInt); ("Entry", TyPtr entry_ty);
              ("Progress", TyFloat); ("Data", TyIface)].

  (** extractor.go:19-21 *)
  Definition result_ty : gty := TyStruct [("Entries", TySlice (TyPtr entry_ty))].

  (** flatesource.go:26-29, gzipsource.go:29-33, bzip2source.go:26-30, brotlisource.go:25-28 *)
  Definition dec_field (d : dpkg) : string :=
    match d with DFlate => "FlateCheckpoint" | DGzip => "GzipCheckpoint" | DBzip2 => "Bzip2Checkpoint" | DBrotli => "BrotliCheckpoint" end.
  Definition dec_has_offset (d : dpkg) : bool := match d with DGzip | DBzip2 => true | _ => false end.
  Definition dec_ty (d : dpkg) : gty :=
    TyStruct ((if dec_has_offset d then [("Offset", TyInt)] else []) ++
      [("SourceCheckpoint", TyPtr sck_ty); (dec_field d, TyPtr (TyStruct (ext_dec X d)))]).

  (** tarextractor.go:22-25 *)
  Definition tarstate_ty : gty :=
    TyStruct [("Result", TyPtr result_ty); ("TarCheckpoint", TyPtr (TyStruct (ext_tar X)))].

  (** The init functions: source.go:127-129, extractor.go:154-156, flatesource.go:181-183,
      gzipsource.go:192-194, bzip2source.go:186-188, brotlisource.go:188-190,
      tarextractor.go:276-279. Types are registered as pointers, under the name
      that reflect gives them. *)
  Definition dec_name (d : dpkg) : string :=
    match d with
    | DFlate => "*flatesource.FlateSourceCheckpoint" | DGzip => "*gzipsource.GzipSourceCheckpoint"
    | DBzip2 => "*bzip2source.Bzip2SourceCheckpoint" | DBrotli => "*brotlisource.BrotliSourceCheckpoint"
    end.
  Definition tarstate_name : string := "*tarextractor.TarExtractorState".
  Definition pkg_init (p : pkg) : registry :=
    match p with
    | PSavior => [("*savior.SourceCheckpoint", TyPtr sck_ty); ("*savior.ExtractorCheckpoint", TyPtr eck_ty)]
    | PDec d => [(dec_name d, TyPtr (dec_ty d))]
    | PTar => [(tarstate_name, TyPtr tarstate_ty); ("*tar.Checkpoint", TyPtr (TyStruct (ext_tar X)))]
    end.

  (** What is registered in a program that links these packages, in the order of their
      initialisation, and possibly others that register other types after them. *)
  Definition linked (ps : list pkg) (more : registry) : registry := flat_map pkg_init ps ++ more.
End Types.

(** ** Source checkpoints *)

(** How a decompressor library represents its checkpoint (input and output
    position, state; None: it cannot be resumed from) as a Go struct. *)
Record libck (C : codec) := MkLib {
  lc_to : Z -> Z -> option (cd_st C) -> list (string * gval);
  lc_from : gval -> option (Z * Z * option (cd_st C)) }.
Arguments lc_to {C}. Arguments lc_from {C}.

(** Stacks as in Drive.v, each layer of one of the four packages. *)
Inductive gstk := GSeek | GDec (d : dpkg) (C : codec) (G : libck C) (fuel : nat) (s : gstk).
Fixpoint gstk_stk (g : gstk) : stk :=
  match g with GSeek => KSeek | GDec d C G fuel s => KDec C (dpkg_cfg d) fuel (gstk_stk s) end.
Fixpoint gstk_pkgs (g : gstk) : list dpkg := match g with GSeek => [] | GDec d _ _ _ s => d :: gstk_pkgs s end.
Definition gs_ck (g : gstk) : Type := s_ck (stk_source (gstk_stk g)).

Definition get (n : string) (v : gval) : option gval := match v with VStruct fs => assoc n fs | _ => None end.
Definition as_int (v : option gval) : option Z := match v with Some (VInt z) => Some z | _ => None end.
Definition as_str (v : option gval) : option bytes := match v with Some (VStr s) => Some s | _ => None end.

(** *savior.SourceCheckpoint, given the Data *)
Definition go_sck {CK} (data : CK -> option (string * gval)) (c : sckpt CK) : gval :=
  VStruct [("Offset", VInt (ck_off c)); ("Data", VIface (match ck_data c with Some d => data d | None => None end))].
Definition un_sck {CK} (data : string -> gval -> option CK) (v : gval) : option (sckpt CK) :=
  match as_int (get "Offset" v), get "Data" v with
  | Some off, Some (VIface None) => Some (MkCk off None)
  | Some off, Some (VIface (Some (n, VPtr (Some d)))) => Some (MkCk off (data n d))
  | _, _ => None
  end.

(** Data of the checkpoints of a stack. seeksource.go:169-171: a seek source leaves it nil.
    flatesource.go:141-147, gzipsource.go:147-154, bzip2source.go:146-153, brotlisource.go:148-154. *)
Fixpoint go_data (g : gstk) : gs_ck g -> option (string * gval) :=
  match g return gs_ck g -> option (string * gval) with
  | GSeek => fun _ => None
  | GDec d C G fuel s => fun dk =>
      Some (dec_name d, VPtr (Some (VStruct (
        (if dec_has_offset d then [("Offset", VInt (dk_off C _ dk))] else []) ++
        [("SourceCheckpoint", VPtr (option_map (go_sck (go_data s)) (dk_src C _ dk)));
         (dec_field d, VPtr (Some (VStruct (lc_to G (dk_roff C _ dk) (dk_woff C _ dk) (dk_snap C _ dk)))))]))))
  end.

(** ... and what a source gets from them: it looks for its own type
    (flatesource.go:65, ...) and ignores any other. Where the struct has no Offset
    field, [dk_off] is 0. *)
Fixpoint un_data (g : gstk) : string -> gval -> option (gs_ck g) :=
  match g return string -> gval -> option (gs_ck g) with
  | GSeek => fun _ _ => None
  | GDec d C G fuel s => fun n v =>
      if String.eqb n (dec_name d) then
        match (if dec_has_offset d then as_int (get "Offset" v) else Some 0), get "SourceCheckpoint" v, get (dec_field d) v with
        | Some off, Some (VPtr src), Some (VPtr (Some lib)) =>
            match lc_from G lib, match src with None => Some None | Some sv => option_map Some (un_sck (un_data s) sv) end with
            | Some (roff, woff, snap), Some sc => Some (MkDck C (stk_source (gstk_stk s)) off sc roff woff snap)
            | _, _ => None
            end
        | _, _, _ => None
        end
      else None
  end.

(** Storing a source checkpoint: gob.NewEncoder(f).Encode(c). Loading: gob.NewDecoder(f).Decode(new(SourceCheckpoint)). *)
Definition store_sck (reg : registry) (g : gstk) (c : sckpt (gs_ck g)) : option wire :=
  gob_encode reg (VPtr (Some (go_sck (go_data g) c))).
Definition load_sck (reg : registry) (g : gstk) (w : wire) : option (sckpt (gs_ck g)) :=
  match gob_decode reg sck_ty w with Some v => un_sck (un_data g) v | None => None end.

(** ** Extractor checkpoints *)

(** sink.go:11-20 EntryKind *)
Definition go_kind (k : ekind) : Z := match k with EkDir => 0 | EkSymlink => 1 | EkFile => 2 | EkOther n => n end.
Definition un_kind (n : Z) : ekind := if n =? 0 then EkDir else if n =? 1 then EkSymlink else if n =? 2 then EkFile else EkOther n.

Definition go_entry (e : entry) : gval :=
  VStruct [("CanonicalPath", VStr (en_path e)); ("Kind", VInt (go_kind (en_kind e))); ("Mode", VInt (en_mode e));
           ("CompressedSize", VInt (en_csize e)); ("UncompressedSize", VInt (en_usize e));
           ("WriteOffset", VInt (en_woff e)); ("Linkname", VStr (en_link e))].
Definition un_entry (v : gval) : option entry :=
  match as_str (get "CanonicalPath" v), as_int (get "Kind" v), as_int (get "Mode" v), as_int (get "CompressedSize" v),
        as_int (get "UncompressedSize" v), as_int (get "WriteOffset" v), as_str (get "Linkname" v) with
  | Some p, Some k, Some m, Some cs, Some us, Some w, Some l => Some (MkEntry p (un_kind k) m cs us w l)
  | _, _, _, _, _, _, _ => None
  end.

Fixpoint all_some {A} (l : list (option A)) : option (list A) :=
  match l with
  | [] => Some []
  | Some a :: l' => option_map (cons a) (all_some l')
  | None :: _ => None
  end.
Definition un_ptr {A} (f : gval -> option A) (v : option gval) : option (option A) :=
  match v with
  | Some (VPtr None) => Some None
  | Some (VPtr (Some v')) => option_map Some (f v')
  | _ => None
  end.

(** extractor.go:19-21 *)
Definition go_result (l : list entry) : gval := VStruct [("Entries", VSlice (map (fun e => VPtr (Some (go_entry e))) l))].
Definition un_result (v : gval) : option (list entry) :=
  match get "Entries" v with
  | Some (VSlice l) => all_some (map (fun p => match p with VPtr (Some v') => un_entry v' | _ => None end) l)
  | _ => None
  end.

(** Data of an extractor's checkpoints. zipextractor never sets it. *)
Record dtgo (DT : Type) := MkDt { dt_to : DT -> option (string * gval); dt_from : string -> gval -> option DT }.
Arguments dt_to {DT}. Arguments dt_from {DT}.
Definition zip_dt : dtgo unit := MkDt unit (fun _ => None) (fun _ _ => None).

(** How arkive/tar represents its checkpoint *)
Record tarck := MkTarck { tk_to : sr -> list (string * gval); tk_from : gval -> option sr }.
(** tarextractor.go:22-25, :132, :86-90 *)
Definition tar_dt (T : tarck) : dtgo tstate :=
  MkDt tstate
    (fun t => Some (tarstate_name, VPtr (Some (VStruct
       [("Result", VPtr (option_map go_result (ts_result t)));
        ("TarCheckpoint", VPtr (option_map (fun s => VStruct (tk_to T s)) (ts_tar t)))]))))
    (fun n v =>
       if String.eqb n tarstate_name then
         match un_ptr un_result (get "Result" v), un_ptr (tk_from T) (get "TarCheckpoint" v) with
         | Some r, Some t => Some (MkTs r t)
         | _, _ => None
         end
       else None).

(** extractor.go:11-17. Progress: the rational number in lowest terms *)
Definition go_eck {DT} (g : gstk) (D : dtgo DT) (c : eckpt (gs_ck g) DT) : gval :=
  VStruct [("SourceCheckpoint", VPtr (option_map (go_sck (go_data g)) (ec_src c))); ("EntryIndex", VInt (ec_index c));
           ("Entry", VPtr (option_map go_entry (ec_entry c))); ("Progress", VFloat (option_map Qred (ec_prog c)));
           ("Data", VIface (match ec_data c with Some d => dt_to D d | None => None end))].
Definition un_eck {DT} (g : gstk) (D : dtgo DT) (v : gval) : option (eckpt (gs_ck g) DT) :=
  match un_ptr (un_sck (un_data g)) (get "SourceCheckpoint" v), as_int (get "EntryIndex" v),
        un_ptr un_entry (get "Entry" v), get "Progress" v, get "Data" v with
  | Some src, Some i, Some e, Some (VFloat q), Some (VIface None) => Some (MkEck src i e q None)
  | Some src, Some i, Some e, Some (VFloat q), Some (VIface (Some (n, VPtr (Some d)))) => Some (MkEck src i e q (dt_from D n d))
  | _, _, _, _, _ => None
  end.

(** checker/extractortester.go:110-124 roundtripEThroughGob, in two halves *)
Definition store_eck {DT} (reg : registry) (g : gstk) (D : dtgo DT) (c : eckpt (gs_ck g) DT) : option wire :=
  gob_encode reg (VPtr (Some (go_eck g D c))).
Definition load_eck {DT} (reg : registry) (g : gstk) (D : dtgo DT) (w : wire) : option (eckpt (gs_ck g) DT) :=
  match gob_decode reg eck_ty w with Some v => un_eck g D v | None => None end.
