(** Sink.v -- model of sink.go and of the checkpoint and save consumer types
    of extractor.go. *)
From Verif Require Import Base Source.

(** sink.go:9-33 EntryKind; values outside the three constants are EkOther *)
Inductive ekind := EkDir | EkSymlink | EkFile | EkOther (n : Z).

(** sink.go:38-62 Entry *)
Record entry := MkEntry {
  en_path : bytes; en_kind : ekind; en_mode : Z; en_csize : Z; en_usize : Z;
  en_woff : Z; en_link : bytes }.
Definition set_woff (e : entry) (w : Z) : entry :=
  MkEntry (en_path e) (en_kind e) (en_mode e) (en_csize e) (en_usize e) w (en_link e).

(** sink.go:77-110 the Sink and EntryWriter interfaces, on a state [k_st].
    Entries are passed by value. The one field a sink writes to,
    entry.WriteOffset, is returned: [k_write] yields the number of bytes the
    writer reports as written, by how much it advances the WriteOffset of the
    entry it was created for, and the error. *)
Record sink := MkSink {
  k_st : Type;
  k_w : Type;
  k_mkdir : k_st -> entry -> k_st * option gerr;
  k_symlink : k_st -> entry -> bytes -> k_st * option gerr;
  k_getw : k_st -> entry -> k_st * res k_w;
  k_prealloc : k_st -> entry -> k_st * option gerr;
  k_nuke : k_st -> k_st * option gerr;
  k_close : k_st -> k_st * option gerr;
  k_write : k_st -> k_w -> bytes -> k_st * (nat * Z * option gerr);
  k_sync : k_st -> k_w -> k_st * option gerr;
  k_closew : k_st -> k_w -> k_st * option gerr
}.

(** extractor.go:11-17 ExtractorCheckpoint. [CK]: payload of the source
    checkpoint, [DT]: dynamic type of Data the receiving extractor looks for.
    Progress: exact rational, None for NaN or infinity. *)
Record eckpt (CK DT : Type) := MkEck {
  ec_src : option (sckpt CK); ec_index : Z; ec_entry : option entry;
  ec_prog : option Q; ec_data : option DT }.
Arguments MkEck {CK DT}. Arguments ec_src {CK DT}. Arguments ec_index {CK DT}.
Arguments ec_entry {CK DT}. Arguments ec_prog {CK DT}. Arguments ec_data {CK DT}.

(** extractor.go:110-117, :119-126: SaveConsumer. Save gets the checkpoint as it is at
    the time of the call (a consumer that keeps it has to copy or serialise it:
    the extractor goes on changing the object). Its result: an error, or
    whether to stop. *)
Record saver (CK DT : Type) := MkSaver {
  sv_st : Type;
  sv_should : sv_st -> Z -> sv_st * bool;
  sv_save : sv_st -> eckpt CK DT -> sv_st * (bool + gerr) }.
Arguments MkSaver {CK DT}. Arguments sv_st {CK DT}. Arguments sv_should {CK DT}. Arguments sv_save {CK DT}.

(** extractor.go:158-175 nopSaveConsumer *)
Definition nop_saver {CK DT} : saver CK DT :=
  MkSaver unit (fun s _ => (s, false)) (fun s _ => (s, inl false)).

(** Error wrapping: errors.WithStack(err), nil stays nil. *)
Definition ws {A} (r : res A) : res A := match r with Err e => Err (with_stack e) | _ => r end.
