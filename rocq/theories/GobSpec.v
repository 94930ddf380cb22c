(** GobSpec.v -- what it means that a checkpoint survives being stored with
    encoding/gob and loaded again, maybe by another program. *)
From Verif Require Import Base Source Seek Decomp Drive Sink Tar Gob GobCk.

(** Encoding the Go value [v] succeeds in a program with the registered types
    [reg], and decoding it in one with [reg'] gives the same value. *)
Definition survives (reg reg' : registry) (t : gty) (v : gval) : Prop :=
  exists w, gob_encode reg v = Some w /\ gob_decode reg' t w = Some v.

(** What is assumed of the external libraries: their checkpoints survive. *)
Fixpoint libs_ok (X : exts) (reg reg' : registry) (g : gstk) : Prop :=
  match g with
  | GSeek => True
  | GDec d C G fuel s =>
      (forall roff woff snap,
         survives reg reg' (TyStruct (ext_dec X d)) (VStruct (lc_to G roff woff snap)) /\
         lc_from G (VStruct (lc_to G roff woff snap)) = Some (roff, woff, snap)) /\
      libs_ok X reg reg' s
  end.
Definition tarlib_ok (X : exts) (reg reg' : registry) (T : tarck) : Prop :=
  forall s, survives reg reg' (TyStruct (ext_tar X)) (VStruct (tk_to T s)) /\ tk_from T (VStruct (tk_to T s)) = Some s.

(** The program links the packages of all layers. *)
Definition links (ps : list pkg) (g : gstk) : Prop := forall d, In d (gstk_pkgs g) -> In (PDec d) ps.

(** The same checkpoint, without the parts of the model's representation that do
    not exist in Go: what a seek source would not look at, and the offset of a
    package whose struct has none. *)
Definition norm_with {CK} (f : CK -> option CK) (c : sckpt CK) : sckpt CK :=
  MkCk (ck_off c) (match ck_data c with Some d => f d | None => None end).
Fixpoint norm_data (g : gstk) : gs_ck g -> option (gs_ck g) :=
  match g return gs_ck g -> option (gs_ck g) with
  | GSeek => fun _ => None
  | GDec d C G fuel s => fun dk =>
      Some (MkDck C (stk_source (gstk_stk s)) (if dec_has_offset d then dk_off C _ dk else 0)
              (option_map (norm_with (norm_data s)) (dk_src C _ dk)) (dk_roff C _ dk) (dk_woff C _ dk) (dk_snap C _ dk))
  end.
Definition norm_sck (g : gstk) : sckpt (gs_ck g) -> sckpt (gs_ck g) := norm_with (norm_data g).

(** [c'] is [c] again, up to the above; Progress is the same number. *)
Definition same_eck {DT} (g : gstk) (c c' : eckpt (gs_ck g) DT) : Prop :=
  ec_src c' = option_map (norm_sck g) (ec_src c) /\ ec_index c' = ec_index c /\ ec_entry c' = ec_entry c /\
  match ec_prog c, ec_prog c' with Some q, Some q' => q' == q | None, None => True | _, _ => False end.

(** Entry kinds are represented properly: EkOther is not used for the three
    constants. *)
Definition kind_ok (k : ekind) : Prop := match k with EkOther n => n <> 0 /\ n <> 1 /\ n <> 2 | _ => True end.
Definition entry_kind_ok (e : entry) : Prop := kind_ok (en_kind e).
