(** TarSpec.v -- specification: what a tar stream contains, and what can happen
    to a tar extraction over time. *)
From Verif Require Import Base Source Seek Decomp CodecSpec Drive SpoilSpec Copier Sink SinkSpec LossSpec Zip ZipSpec Tar.

(** A member of a tar stream: its header, the position of its data in the
    stream, and the data (as much of it as there is, if the stream is too short). *)
Record tmember := MkTm { tm_hdr : theader; tm_pos : nat; tm_data : bytes }.

(** ** What the header parser makes of a stream
    that consists of the bytes [D] and then ends with the error [tm] (io.EOF for
    a clean end). [tparse N p st]: at position p, within N steps: the header or
    error, and the position after it. *)
Section Layout.
  Context (F : tfmt) (D : bytes) (tm : gerr).

  Fixpoint tparse (N : nat) (p : nat) (st : tf_st F) : option (theader + gerr) * nat :=
    match N with
    | O => (None, p)
    | S N' =>
        match tf_step F st with
        | TsHdr h => (Some (inl h), p)
        | TsFail e => (Some (inr e), p)
        | TsNeed n k =>
            let d := slice D p n in
            if (length d =? n)%nat || gerr_eqb tm EEof then tparse N' (p + length d) (k d)
            else (Some (inr tm), (p + length d)%nat)
        end
    end.

  (** [tlayout N p pad ms ok]: from position [p] on, where [pad] bytes of padding
      are due, the stream contains the members [ms]. [ok]: it then ends properly;
      otherwise there is a bad header, or the data of the last member is cut off. *)
  Inductive tlayout (N : nat) : nat -> nat -> list tmember -> bool -> Prop :=
  | TlEnd p pad q : tparse N p (tf_init F pad) = (Some (inr EEof), q) -> tlayout N p pad [] true
  | TlBad p pad e q : tparse N p (tf_init F pad) = (Some (inr e), q) -> e <> EEof -> tlayout N p pad [] false
  | TlMem p pad h q ms ok :
      tparse N p (tf_init F pad) = (Some (inl h), q) -> (q + th_nb h <= length D)%nat ->
      tlayout N (q + th_nb h) (th_pad h) ms ok ->
      tlayout N p pad (MkTm h q (slice D q (th_nb h)) :: ms) ok
  | TlTrunc p pad h q :
      tparse N p (tf_init F pad) = (Some (inl h), q) -> (length D < q + th_nb h)%nat ->
      tlayout N p pad [MkTm h q (slice D q (th_nb h))] false.
End Layout.

(** The entries and what they stand for; members of unknown type are ignored. *)
Definition th_entry (h : theader) (kd : ekind) (target : bytes) : entry := {|
  en_path := th_name h; en_kind := kd; en_mode := th_mode h mod 2 ^ 32; (* int64 there, uint32 here *)
  en_csize := 0; en_usize := th_size h; en_woff := 0; en_link := target |}.
Definition tm_entry (m : tmember) : option entry :=
  match th_type (tm_hdr m) with
  | TfDir => Some (th_entry (tm_hdr m) EkDir [])
  | TfSymlink => Some (th_entry (tm_hdr m) EkSymlink (th_link (tm_hdr m)))
  | TfReg => Some (th_entry (tm_hdr m) EkFile [])
  | TfOther => None
  end.
Definition tm_node (m : tmember) : node :=
  match th_type (tm_hdr m) with
  | TfDir => NDir
  | TfSymlink => NLink (th_link (tm_hdr m))
  | _ => NFile (tm_data m)
  end.
Definition tm_item (m : tmember) : list item :=
  match tm_entry m with Some e => [(e, tm_node m)] | None => [] end.
Definition titems (ms : list tmember) : list item := flat_map tm_item ms.

(** The files among them, with the WriteOffset of a completely written file
    (0 if the sink ignores it). *)
Definition tm_written {SK} (L : sink_laws SK) (m : tmember) : list entry :=
  match tm_entry m, th_type (tm_hdr m) with
  | Some e, TfReg => [set_woff e (match kl_of L e with Some _ => zlen (tm_data m) | None => 0 end)]
  | _, _ => []
  end.
Definition tfiles {SK} (L : sink_laws SK) (ms : list tmember) : list entry := flat_map (tm_written L) ms.

(** A tar stream: [k] is the stack of sources it is read through, over the
    section [start, start+size) of [data]; it decodes to the bytes [D] followed by [tm] (and the
    decompressor must not signal block boundaries together with data: last
    index false); these contain the members [ms], which the sink can store. *)
Record tarchive (pol : bool) (data : bytes) (start size : Z) (k : stk) (D : bytes) (tm : gerr) (F : tfmt) (N : nat)
    (ms : list tmember) (ok : bool) {SK} (L : sink_laws SK) : Prop := {
  ta_den : exists b byt p, stk_den pol data start size k D tm b byt p false;
  ta_layout : tlayout F D tm N 0 0 ms ok;
  ta_valid : storable L (titems ms) }.

(** Symlinks have acceptable targets. *)
Definition tsound {SK} (L : sink_laws SK) (ms : list tmember) : Prop :=
  forall e t, In (e, NLink t) (titems ms) -> kl_vlink L e t.

Section Life.
  Context (pol : bool) (data : bytes) (start size : Z) (k : stk) (F : tfmt).
  Context {SK : sink} (L : sink_laws SK) (st0 : k_st SK).

  (** A newly made source over a reader of [data] that may fail at any time. *)
  Definition tsrc (rs : rstate) : s_st (stk_source k) := stk_new k rs start size.
  Definition rs_ok (rs : rstate) : Prop := rs_of data rs /\ stk_flag pol (rs_separate rs).

  (** Nothing to resume from: nil, or a checkpoint object without data (that is
      what Resume leaves of a caller's object when it is stopped or done). *)
  Definition no_point (c : option (teck (stk_source k))) : Prop :=
    c = None \/ exists ck, c = Some ck /\ ec_data ck = None.

  (** The WriteOffset of a checkpoint object matches its tar position. *)
  Definition in_step (ms : list tmember) (c : teck (stk_source k)) : Prop :=
    exists m e l s, nth_error ms (Z.to_nat (ec_index c)) = Some m /\ ec_entry c = Some e /\
      ec_data c = Some (MkTs (Some l) (Some s)) /\
      (kl_of L e = None \/ sr_off s = Z.of_nat (tm_pos m) + en_woff e).

  (** A checkpoint that has lost its source checkpoint, or a part of it
      (SpoilSpec.v). *)
  Definition tspoilt (c c' : teck (stk_source k)) : Prop :=
    ec_index c' = ec_index c /\ ec_entry c' = ec_entry c /\ ec_data c' = ec_data c /\
    (ec_src c' = None \/ exists sc sc', ec_src c = Some sc /\ ec_src c' = Some sc' /\ spoilt k sc sc').

  Context (ms : list tmember).
  (** Everything that can happen to a sink: [tlife st cks] if the sink can be in
      state [st] while the user holds the checkpoints [cks], latest first; as
      [zlife] in ZipSpec.v. Every run has a new source and a new extractor. The user may also keep
      the checkpoint object that a failed run was given, or that a fresh run has
      passed to Save ([TfKept]), if it is [in_step]. Of any
      checkpoint, only a part may be left later ([tspoilt]). The power may fail ([TfPower],
      [TfPowerAll]; LossSpec.v). *)
  Inductive tlife : k_st SK -> list (teck (stk_source k)) -> Prop :=
  | TfStart : tlife st0 []
  | TfReopen st st' cks :
      tlife st cks -> kl_inv L st' -> (forall l, kl_view L st' l = kl_view L st l) -> tlife st' cks
  | TfFresh st cks c SV rs fuel v n out :
      tlife st cks -> rs_ok rs -> no_point c ->
      out = tar_resume (crashing SK) F (stk_source k) SV (tsrc rs) fuel c (st, n) v ->
      tlife (fst (to_sink _ _ _ out)) (rev (map fst (to_log _ _ _ out)))
  | TfResume st later c earlier SV rs fuel v n out kept :
      tlife st (later ++ c :: earlier) -> rs_ok rs ->
      out = tar_resume (crashing SK) F (stk_source k) SV (tsrc rs) fuel (Some c) (st, n) v ->
      (forall c', In c' kept -> kept = [c'] /\ to_ck _ _ _ out = Some c' /\ in_step ms c') ->
      tlife (fst (to_sink _ _ _ out)) (kept ++ rev (map fst (to_log _ _ _ out)) ++ c :: earlier)
  | TfSpoil st later c c' earlier :
      tlife st (later ++ c :: earlier) -> tspoilt c c' -> tlife st (later ++ c' :: c :: earlier)
  | TfKept st cks c SV rs fuel v n out c' :
      tlife st cks -> rs_ok rs -> no_point c ->
      out = tar_resume (crashing SK) F (stk_source k) SV (tsrc rs) fuel c (st, n) v ->
      to_obj _ _ _ out = Some c' -> in_step ms c' ->
      tlife (fst (to_sink _ _ _ out)) (c' :: rev (map fst (to_log _ _ _ out)))
  | TfPower st st' later c earlier :
      tlife st (later ++ c :: earlier) -> kl_inv L st' ->
      loss_spares L (titems (firstn (Z.to_nat (ec_index c)) ms)) (titems (skipn (Z.to_nat (ec_index c)) ms)) (ec_entry c) st st' ->
      tlife st' (c :: earlier)
  | TfPowerAll st st' cks :
      tlife st cks -> kl_inv L st' -> loss_spares L [] (titems ms) None st st' -> tlife st' [].

  (** A call of Resume at any point of such a life: from the beginning or from a
      checkpoint the user holds. *)
  Inductive trun (SV : saver (s_ck (stk_source k)) tstate)
      : option (teck (stk_source k)) -> rstate -> nat -> k_st SK -> tout SK (stk_source k) SV -> Prop :=
  | TrFresh st cks c rs fuel v out :
      tlife st cks -> rs_ok rs -> no_point c ->
      out = tar_resume SK F (stk_source k) SV (tsrc rs) fuel c st v -> trun SV c rs fuel st out
  | TrResume st later c earlier rs fuel v out :
      tlife st (later ++ c :: earlier) -> rs_ok rs ->
      out = tar_resume SK F (stk_source k) SV (tsrc rs) fuel (Some c) st v -> trun SV (Some c) rs fuel st out.
End Life.
