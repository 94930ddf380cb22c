(** ZipSpec.v -- specification: zip archives, how their reader may behave, and
    what can happen to an extraction over time. *)
From Verif Require Import Base Source Seek Decomp CodecSpec Drive SpoilSpec Copier Sink SinkSpec LossSpec Zip Shallow.

(** A member of an archive: its directory record, the offset of its data, and
    what that data stands for: the bytes it decodes to (file contents or
    symlink target) and how it ends (io.EOF unless damaged). *)
Record zmember := MkZm { zm_file : zfile; zm_off : Z; zm_data : bytes; zm_err : gerr }.

(** The entry a directory record describes: bit 31 of the mode is os.ModeDir,
    bit 27 os.ModeSymlink; sizes are uint64 there and int64 here. *)
Definition zrecord_entry (f : zfile) : entry := {|
  en_path := zf_name f;
  en_kind := if Z.testbit (zf_mode f) 31 then EkDir else if Z.testbit (zf_mode f) 27 then EkSymlink else EkFile;
  en_mode := zf_mode f; en_csize := wrap64 (zf_csize f); en_usize := wrap64 (zf_usize f); en_woff := 0; en_link := [] |}.
Definition zlisting (files : list zfile) : list entry := map zrecord_entry files.
Definition zm_entry (m : zmember) : entry := zrecord_entry (zm_file m).
Definition zm_node (m : zmember) : node :=
  match en_kind (zm_entry m) with
  | EkDir => NDir
  | EkSymlink => NLink (zm_data m)
  | _ => NFile (zm_data m)
  end.
Definition zm_item (m : zmember) : item := (zm_entry m, zm_node m).
Definition zm_csize (m : zmember) : Z := wrap64 (zf_csize (zm_file m)).

(** extracted through a source (stored or deflated file) *)
Definition zm_via (C : codec) (fuel0 : nat) (m : zmember) : option stk :=
  match en_kind (zm_entry m) with
  | EkFile =>
      if zf_method (zm_file m) =? zip_store then Some KSeek
      else if zf_method (zm_file m) =? zip_deflate then Some (zk_deflate C fuel0)
      else None
  | _ => None
  end.

(** [A]: the bytes of the archive. The data of stored and deflated files must
    decode as the member says (and the decompressor must not signal block
    boundaries together with data: last index false). *)
Definition zm_ok (A : bytes) (C : codec) (fuel0 : nat) (pol : bool) (m : zmember) : Prop :=
  match zm_via C fuel0 m with
  | Some k => exists b byt p,
      stk_den pol (slice A (Z.to_nat (zm_off m)) (Z.to_nat (zm_csize m))) 0 (zm_csize m)
        k (zm_data m) (zm_err m) b byt p false
  | None => True
  end.

(** How the archive reader may behave for a member during a run: whatever it
    delivers is right, but it may fail at any time. *)
Definition io_ok (A : bytes) (pol : bool) (m : zmember) (io : zio) : Prop :=
  match zi_dataoff io with Ok off => off = zm_off m | Err _ => True | _ => False end /\
  (forall off n, rs_data (zi_section io off n) = slice A (Z.to_nat off) (Z.to_nat n) /\
                 stk_flag pol (rs_separate (zi_section io off n))) /\
  match zi_open io with
  | Ok (chunks, None) => concat chunks = zm_data m
  | Ok (chunks, Some e) => e <> EEof /\ exists rest, zm_data m = concat chunks ++ rest
  | Err _ => True
  | _ => False
  end.
(** ... without failures *)
Definition io_good (io : zio) : Prop :=
  (exists off, zi_dataoff io = Ok off) /\ (forall off n, rs_good (zi_section io off n)) /\
  (exists chunks, zi_open io = Ok (chunks, None)).

Definition zfiles (ms : list zmember) : list zfile := map zm_file ms.
Definition zitems (ms : list zmember) : list item := map zm_item ms.

Section Life.
  Context (A : bytes) (C : codec) (fuel0 : nat) (pol : bool) (ms : list zmember).
  Context {SK : sink} (L : sink_laws SK) (st0 : k_st SK) (mem : bool).

  (** The checkpoint [c'] is what is left of the checkpoint [c] of the extractor:
      the source's part is lost, or spoilt (SpoilSpec.v; for a stored file the source is a
      bare seek source, whose checkpoint is an offset). *)
  Definition zspoilt_src (m : zmember) (sc sc' : sckpt (zck C fuel0)) : Prop :=
    if zf_method (zm_file m) =? zip_store then spoilt KSeek (prj_store C fuel0 sc) (prj_store C fuel0 sc')
    else spoilt (zk_deflate C fuel0) sc sc'.
  Definition zspoilt (c c' : zeck C fuel0) : Prop :=
    ec_index c' = ec_index c /\ ec_entry c' = ec_entry c /\
    (ec_src c' = None \/
     exists m sc sc', nth_error ms (Z.to_nat (ec_index c)) = Some m /\
       ec_src c = Some sc /\ ec_src c' = Some sc' /\ zspoilt_src m sc sc').

  Definition ios_ok (io : nat -> zio) : Prop :=
    forall i m, nth_error ms i = Some m -> io_ok A pol m (io i).

  (** Everything that can happen to a sink: [zlife st cks] if the sink can be in
      state [st] while the user holds the checkpoints [cks], latest first. A run
      is started from the beginning or from one of the checkpoints (which then
      invalidates the later ones), with any save consumer, and may end in any
      way: successfully, with an error, stopped, or killed after any number of
      sink operations ([n]) or of chunks ([fuel]). The checkpoints are those
      passed to Save; with [mem] also the checkpoint object that Resume was
      called with, as Resume leaves it on a failure other than being stopped,
      or just the object that was passed to Save, as it is when Resume returns
      for whatever reason ([ZlKept]: a save consumer that keeps pointers), shallow copies
      of the checkpoints ([ZlFreshShallow], [ZlResumeShallow]; see Shallow.v),
      and copies of checkpoints that lost a part of their content. Between runs the sink may be
      closed and opened again. The power may fail, at any time (a run that is killed ends
      at any time): if this spares what the checkpoint [c] is about (LossSpec.v), [c] and the earlier ones
      remain ([ZlPower]); if it spares only what does not belong to the archive, one can
      start again ([ZlPowerAll]). *)
  Inductive zlife : k_st SK -> list (zeck C fuel0) -> Prop :=
  | ZlStart : zlife st0 []
  | ZlReopen st st' cks :
      zlife st cks -> kl_inv L st' -> (forall l, kl_view L st' l = kl_view L st l) -> zlife st' cks
  | ZlFresh st cks SV io fuel v n out :
      zlife st cks -> ios_ok io ->
      out = zip_resume (crashing SK) C fuel0 SV (zfiles ms) io fuel None (st, n) v ->
      zlife (fst (zo_sink _ _ _ _ out)) (rev (map fst (zo_log _ _ _ _ out)))
  | ZlResume st later c earlier SV io fuel v n out :
      zlife st (later ++ c :: earlier) -> ios_ok io ->
      out = zip_resume (crashing SK) C fuel0 SV (zfiles ms) io fuel (Some c) (st, n) v ->
      zlife (fst (zo_sink _ _ _ _ out))
        ((if mem then match zo_ck _ _ _ _ out, zo_res _ _ _ _ out with Some c', Err e => if gerr_eqb e EStop then [] else [c'] | _, _ => [] end else [])
         ++ rev (map fst (zo_log _ _ _ _ out)) ++ c :: earlier)
  | ZlSpoil st later c c' earlier :
      mem = true -> zlife st (later ++ c :: earlier) -> zspoilt c c' -> zlife st (later ++ c' :: c :: earlier)
  | ZlKept st cks c SV io fuel v n out :
      mem = true -> zlife st cks -> (forall ck, c = Some ck -> In ck cks) -> ios_ok io ->
      out = zip_resume (crashing SK) C fuel0 SV (zfiles ms) io fuel c (st, n) v ->
      zlife (fst (zo_sink _ _ _ _ out)) [zo_obj _ _ _ _ out]
  | ZlFreshShallow st cks SV io fuel v n out os :
      mem = true -> zlife st cks -> ios_ok io ->
      out = zip_resume (crashing SK) C fuel0 SV (zfiles ms) io fuel None (st, n) v ->
      os = zip_resume_objects (crashing SK) C fuel0 SV (zfiles ms) io fuel None (st, n) v ->
      zlife (fst (zo_sink _ _ _ _ out)) (map (shallow C fuel0 os) (rev (map fst (zo_log _ _ _ _ out))))
  | ZlResumeShallow st later c earlier SV io fuel v n out os :
      mem = true -> zlife st (later ++ c :: earlier) -> Forall (fun c' => ec_entry c' <> None) (c :: earlier) -> ios_ok io ->
      out = zip_resume (crashing SK) C fuel0 SV (zfiles ms) io fuel (Some c) (st, n) v ->
      os = zip_resume_objects (crashing SK) C fuel0 SV (zfiles ms) io fuel (Some c) (st, n) v ->
      zlife (fst (zo_sink _ _ _ _ out)) (map (shallow C fuel0 os) (rev (map fst (zo_log _ _ _ _ out)) ++ c :: earlier))
  | ZlPower st st' later c earlier :
      zlife st (later ++ c :: earlier) -> kl_inv L st' ->
      loss_spares L (zitems (firstn (Z.to_nat (ec_index c)) ms)) (zitems (skipn (Z.to_nat (ec_index c)) ms)) (ec_entry c) st st' ->
      zlife st' (c :: earlier)
  | ZlPowerAll st st' cks :
      zlife st cks -> kl_inv L st' -> loss_spares L [] (zitems ms) None st st' -> zlife st' [].
End Life.

(** An archive whose members decode as they say and that the sink can store. *)
Record zarchive (A : bytes) (C : codec) (fuel0 : nat) (pol : bool) {SK} (L : sink_laws SK) (ms : list zmember) : Prop := {
  za_ok : Forall (zm_ok A C fuel0 pol) ms;
  za_valid : storable L (zitems ms) }.

(** Nothing is wrong with a member: not encrypted, not damaged, acceptable target. *)
Definition zencrypted (m : zmember) : bool := Z.odd (zf_flags (zm_file m)).
Definition zsound (C : codec) (fuel0 : nat) {SK} (L : sink_laws SK) (m : zmember) : Prop :=
  (zm_via C fuel0 m <> None -> zm_err m = EEof) /\
  (en_kind (zm_entry m) = EkSymlink -> kl_vlink L (zm_entry m) (zm_data m)).

(** A call of Resume at any point of such a life: from the beginning or from a
    checkpoint the user holds. *)
Inductive zrun (A : bytes) (C : codec) (fuel0 : nat) (pol : bool) (ms : list zmember) {SK : sink} (L : sink_laws SK)
    (st0 : k_st SK) (mem : bool) (SV : saver (zck C fuel0) unit)
    : option (zeck C fuel0) -> (nat -> zio) -> nat -> k_st SK -> zout SK C fuel0 SV -> Prop :=
| ZrFresh st cks io fuel v out :
    zlife A C fuel0 pol ms L st0 mem st cks -> ios_ok A pol ms io ->
    out = zip_resume SK C fuel0 SV (zfiles ms) io fuel None st v ->
    zrun A C fuel0 pol ms L st0 mem SV None io fuel st out
| ZrResume st later c earlier io fuel v out :
    zlife A C fuel0 pol ms L st0 mem st (later ++ c :: earlier) -> ios_ok A pol ms io ->
    out = zip_resume SK C fuel0 SV (zfiles ms) io fuel (Some c) st v ->
    zrun A C fuel0 pol ms L st0 mem SV (Some c) io fuel st out.

(** A save consumer that never fails and never stops the extraction. *)
Definition saver_goes_on {CK DT} (SV : saver CK DT) : Prop := forall v c, exists v', sv_save SV v c = (v', inl false).
(** ... that never fails, but may stop the extraction any time it saves. *)
Definition saver_noerr {CK DT} (SV : saver CK DT) : Prop := forall v c, exists v' b, sv_save SV v c = (v', inl b).

(** [dur st l]: what would be found at [l] after a power loss. The least a
    file system owes its user: a file that was synced is there as it was. *)
Definition dur_ok {SK} (L : sink_laws SK) (dur : k_st SK -> kl_loc L -> option node) : Prop :=
  forall st w l off st', kl_inv L st -> kl_open L st w (Some l) off -> k_sync SK st w = (st', None) ->
    dur st' l = kl_view L st' l.
