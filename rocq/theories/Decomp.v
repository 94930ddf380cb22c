(** Decomp.v -- model of flatesource, gzipsource, bzip2source, brotlisource.
    The four packages are the same program up to a few choices, recorded in
    [dcfg]; the external decompressor (kompress/flate, gzip, bzip2,
    dskompress/brotli) is an arbitrary [codec]. *)
From Verif Require Import Base Source.

(** ** The external decompressor *)

(** One step of a decompressor in a given state: ask for the next input byte
    (ReadByte); ask for exactly [n] input bytes (io.ReadFull, as for stored
    blocks and gzip headers and trailers); produce output (at least one byte); pass a block boundary (the only places
    where it can be saved); finish; or reject the input. *)
Inductive cact (st : Type) :=
| Pull (k : byte -> st)
| PullN (n : nat) (k : bytes -> st)
| Emit (b : byte) (bs : bytes) (s : st)
| Boundary (s : st)
| Finish
| Corrupt.
Arguments Pull {st} k.
Arguments PullN {st} n k.
Arguments Emit {st} b bs s.
Arguments Boundary {st} s.
Arguments Finish {st}.
Arguments Corrupt {st}.

Record codec := MkCodec {
  cd_st : Type;
  cd_init : cd_st;
  cd_step : cd_st -> cact cd_st;
  cd_savable : cd_st -> bool;  (* SaverReader.Save succeeds in this state *)
  cd_eager : bool;             (* returns io.EOF together with the last data *)
  cd_eager_save : bool         (* returns ReadyToSaveError together with data *)
}.

(** Which of the four packages. *)
Record dcfg := MkCfg {
  cf_own_off : bool;  (* resume offset taken from the source's own checkpoint (gzip, bzip2) or from the decompressor's (flate, brotli) *)
  cf_clear : bool;    (* sourceCheckpoint = nil after saving (all but bzip2) *)
  cf_hdr : bool       (* NewSaverReader reads a header from the source (gzip) *)
}.
Definition flate_cfg : dcfg := MkCfg false true false.   (* flatesource.go:93-94, :148, :113 *)
Definition gzip_cfg : dcfg := MkCfg true true true.      (* gzipsource.go:95-96, :155, :115-118 *)
Definition bzip2_cfg : dcfg := MkCfg true false false.   (* bzip2source.go:97-98, :146-155 (no reset), :117 *)
Definition brotli_cfg : dcfg := MkCfg false true false.  (* brotlisource.go:95-96, :155, :115-119 (constructor assumed not to read nor fail) *)

Section Decomp.
  Context (C : codec) (cfg : dcfg) (I : source) (fuel0 : nat).

  (** SaverReader: decompressor state, output not yet delivered, sticky
      error, save request, input and output positions. *)
  Record srd := MkSr {
    sr_d : cd_st C; sr_pend : bytes; sr_fail : option gerr; sr_want : bool;
    sr_roff : Z; sr_woff : Z }.

  Definition sr_new (d : cd_st C) (roff woff : Z) : srd := MkSr d [] None false roff woff.

  (** flatesource.go:26-29, gzipsource.go:29-33, bzip2source.go:26-30,
      brotlisource.go:25-28: payload of our checkpoints. [dk_snap = None]: a decompressor
      checkpoint whose Resume fails. (Simplification: the pointer to the
      decompressor checkpoint is never nil.) *)
  Record dck := MkDck {
    dk_off : Z; dk_src : option (sckpt (s_ck I));
    dk_roff : Z; dk_woff : Z; dk_snap : option (cd_st C) }.

  (** flatesource.go:12-24 and the same struct in the other packages.
      [ds_buf] is bytebuf[0]. *)
  Record dstate := MkDs {
    ds_in : s_st I; ds_sr : option srd; ds_off : Z; ds_ssc : bool;
    ds_sck : option (sckpt (s_ck I)); ds_buf : byte }.

  Definition dcomp_new (i : s_st I) : dstate := MkDs i None 0 false None zero.

  (** flatesource.go:47-56 OnSave: remember the inner checkpoint and call
      sr.WantSave(); a nil sr is a nil dereference. *)
  Definition dcomp_onsave : callback (s_ck I) (option (sckpt (s_ck I)) * option srd) :=
    fun c k =>
      match snd k with
      | None => ((Some c, None), CPanic)
      | Some s => ((Some c, Some (MkSr (sr_d s) (sr_pend s) (sr_fail s) true (sr_roff s) (sr_woff s))), COk)
      end.

  (** flatesource.go:47-60 *)
  Definition dcomp_setssc (s : dstate) : dstate :=
    MkDs (s_setssc I (ds_in s)) (ds_sr s) (ds_off s) true (ds_sck s) (ds_buf s).
  Definition dcomp_want (s : dstate) : dstate :=
    MkDs (s_want I (ds_in s)) (ds_sr s) (ds_off s) (ds_ssc s) (ds_sck s) (ds_buf s).

  (** SaverReader.Read(p), len(p) = n, pulling bytes from the inner source.
      The flag of a pending save is checked at block boundaries only. *)
  Fixpoint sr_read (fuel : nat) (i : s_st I) (sck : option (sckpt (s_ck I))) (s : srd) (n : nat)
      : s_st I * option (sckpt (s_ck I)) * srd * rres :=
    match sr_pend s with
    | _ :: _ =>
        let d := firstn n (sr_pend s) in
        let rest := skipn n (sr_pend s) in
        let woff := sr_woff s + zlen d in
        let plain := (i, sck, MkSr (sr_d s) rest (sr_fail s) (sr_want s) (sr_roff s) woff, RRet d None) in
        match rest with
        | _ :: _ => plain
        | [] =>
            match cd_step C (sr_d s) with
            | Finish => if cd_eager C
                then (i, sck, MkSr (sr_d s) [] (sr_fail s) (sr_want s) (sr_roff s) woff, RRet d (Some EEof))
                else plain
            | Corrupt => if cd_eager C
                then (i, sck, MkSr (sr_d s) [] (sr_fail s) (sr_want s) (sr_roff s) woff, RRet d (Some ECorrupt))
                else plain
            | Boundary d' => if cd_eager_save C && sr_want s
                then (i, sck, MkSr d' [] (sr_fail s) false (sr_roff s) woff, RRet d (Some EReadyToSave))
                else plain
            | _ => plain
            end
        end
    | [] =>
        match sr_fail s with
        | Some e => (i, sck, s, RRet [] (Some e))
        | None =>
            match fuel with
            | O => (i, sck, s, RHang)
            | Datatypes.S f =>
                match cd_step C (sr_d s) with
                | Pull k =>
                    match s_readbyte I dcomp_onsave i (sck, Some s) with
                    | (i', (sck', Some s'), BRet b None) =>
                        sr_read f i' sck' (MkSr (k b) [] None (sr_want s') (sr_roff s' + 1) (sr_woff s')) n
                    | (i', (sck', Some s'), BRet _ (Some e)) =>
                        let e' := match e with EEof => EUnexpectedEof | _ => e end in
                        (i', sck', MkSr (sr_d s') [] (Some e') (sr_want s') (sr_roff s') (sr_woff s'), RRet [] (Some e'))
                    | (i', (sck', _), BHang) => (i', sck', s, RHang)
                    | (i', (sck', _), _) => (i', sck', s, RPanic)
                    end
                | PullN m k =>
                    match read_full I dcomp_onsave fuel0 i (sck, Some s) m with
                    | (i', (sck', Some s'), Ok (d, None)) =>
                        sr_read f i' sck' (MkSr (k d) [] None (sr_want s') (sr_roff s' + zlen d) (sr_woff s')) n
                    | (i', (sck', Some s'), Ok (d, Some e)) =>
                        let e' := match e with EEof => EUnexpectedEof | _ => e end in
                        (i', sck', MkSr (sr_d s') [] (Some e') (sr_want s') (sr_roff s' + zlen d) (sr_woff s'), RRet [] (Some e'))
                    | (i', (sck', _), Hang) => (i', sck', s, RHang)
                    | (i', (sck', _), _) => (i', sck', s, RPanic)
                    end
                | Emit b bs d' => sr_read f i sck (MkSr d' (b :: bs) None (sr_want s) (sr_roff s) (sr_woff s)) n
                | Boundary d' =>
                    if sr_want s
                    then (i, sck, MkSr d' [] None false (sr_roff s) (sr_woff s), RRet [] (Some EReadyToSave))
                    else sr_read f i sck (MkSr d' [] None false (sr_roff s) (sr_woff s)) n
                | Finish => (i, sck, s, RRet [] (Some EEof))
                | Corrupt => (i, sck, s, RRet [] (Some ECorrupt))
                end
            end
        end
    end.

  (** gzip.NewSaverReader: reads the header (all leading Pull and PullN steps) when the
      package does so ([cf_hdr]). [osr] is the previous gs.sr, which OnSave
      refers to while the header is read. *)
  Fixpoint sr_header (fuel : nat) (i : s_st I) (sck : option (sckpt (s_ck I))) (osr : option srd)
      (d : cd_st C) (roff : Z) : s_st I * option (sckpt (s_ck I)) * res srd :=
    match cd_step C d with
    | Pull k =>
        match fuel with
        | O => (i, sck, Hang)
        | Datatypes.S f =>
            match s_readbyte I dcomp_onsave i (sck, osr) with
            | (i', (sck', osr'), BRet b None) => sr_header f i' sck' osr' (k b) (roff + 1)
            | (i', (sck', _), BRet _ (Some e)) =>
                (* io.ReadFull: io.EOF only if nothing at all was read *)
                (i', sck', Err (match e with EEof => if roff =? 0 then EEof else EUnexpectedEof | _ => e end))
            | (i', (sck', _), BHang) => (i', sck', Hang)
            | (i', (sck', _), BPanic) => (i', sck', Panic)
            end
        end
    | PullN m k =>
        match fuel with
        | O => (i, sck, Hang)
        | Datatypes.S f =>
            match read_full I dcomp_onsave fuel0 i (sck, osr) m with
            | (i', (sck', osr'), Ok (b, None)) => sr_header f i' sck' osr' (k b) (roff + zlen b)
            | (i', (sck', _), Ok (b, Some e)) =>
                (i', sck', Err (match e with EEof => if roff + zlen b =? 0 then EEof else EUnexpectedEof | _ => e end))
            | (i', (sck', _), Hang) => (i', sck', Hang)
            | (i', (sck', _), _) => (i', sck', Panic)
            end
        end
    | Corrupt => (i, sck, Err ECorrupt)
    | _ => (i, sck, Ok (sr_new d roff 0))
    end.

  (** flatesource.go:102-116, gzipsource.go:104-121, bzip2source.go:106-120,
      brotlisource.go:104-122: start from the beginning *)
  Definition dcomp_fresh (s : dstate) : dstate * res Z :=
    let '(i1, r) := s_resume I (ds_in s) None in
    let s1 := MkDs i1 (ds_sr s) (ds_off s) (ds_ssc s) (ds_sck s) (ds_buf s) in
    match r with
    | Ok z =>
        if negb (z =? 0) then (s1, Err (EOther 4))
        else if cf_hdr cfg then
          match sr_header fuel0 i1 (ds_sck s) (ds_sr s) (cd_init C) 0 with
          | (i2, sck2, Ok sr) => (MkDs i2 (Some sr) 0 (ds_ssc s) sck2 (ds_buf s), Ok 0)
          | (i2, sck2, Err e) => (MkDs i2 None (ds_off s) (ds_ssc s) sck2 (ds_buf s), Err e)
          | (i2, sck2, Panic) => (MkDs i2 (ds_sr s) (ds_off s) (ds_ssc s) sck2 (ds_buf s), Panic)
          | (i2, sck2, Hang) => (MkDs i2 (ds_sr s) (ds_off s) (ds_ssc s) sck2 (ds_buf s), Hang)
          end
        else (MkDs i1 (Some (sr_new (cd_init C) 0 0)) 0 (ds_ssc s) (ds_sck s) (ds_buf s), Ok 0)
    | Err e => (s1, Err e)
    | Panic => (s1, Panic)
    | Hang => (s1, Hang)
    end.

  (** flatesource.go:62-116 Resume (and gzip 66-122, bzip2 66-121, brotli 64-123) *)
  Definition dcomp_resume (s : dstate) (c : option (sckpt dck)) : dstate * res Z :=
    match c with
    | Some (MkCk _ (Some dk)) =>
        let '(i1, r1) := s_resume I (ds_in s) (dk_src dk) in
        let s1 := MkDs i1 (ds_sr s) (ds_off s) (ds_ssc s) (ds_sck s) (ds_buf s) in
        match r1 with
        | Ok soff =>
            let '(i2, (sck2, sr2), r2) :=
              discard_by_read I dcomp_onsave fuel0 i1 (ds_sck s, ds_sr s) (dk_roff dk - soff) in
            let s2 := MkDs i2 sr2 (ds_off s) (ds_ssc s) sck2 (ds_buf s) in
            match r2 with
            | Ok _ =>
                (* sourceOffset == Roffset, after adding delta if it was smaller *)
                if soff <=? dk_roff dk then
                  match dk_snap dk with
                  | Some d =>
                      let off := if cf_own_off cfg then dk_off dk else dk_woff dk in
                      (MkDs i2 (Some (sr_new d (dk_roff dk) (dk_woff dk))) off (ds_ssc s) sck2 (ds_buf s), Ok off)
                  | None =>
                      (* could not use the checkpoint: start over *)
                      let '(i3, r3) := s_resume I i2 None in
                      let s3 := MkDs i3 None (ds_off s) (ds_ssc s) sck2 (ds_buf s) in
                      match r3 with
                      | Ok _ => dcomp_fresh s3
                      | Err e => (s3, Err e)
                      | Panic => (s3, Panic)
                      | Hang => (s3, Hang)
                      end
                  end
                else dcomp_fresh s2
            | Err e => (s2, Err e)
            | Panic => (s2, Panic)
            | Hang => (s2, Hang)
            end
        | Err e => (s1, Err e)
        | Panic => (s1, Panic)
        | Hang => (s1, Hang)
        end
    | _ => dcomp_fresh s
    end.

  (** flatesource.go:118-156 Read (gzip 124-163, bzip2 123-161, brotli 125-163).
      Save() failing is [EOther 5]. *)
  Definition dcomp_read {K} (cb : callback dck K) (s : dstate) (k : K) (n : nat) : dstate * K * rres :=
    match ds_sr s with
    | None => (s, k, RRet [] (Some EUninit))
    | Some sr =>
        let '(i1, sck1, sr1, r) := sr_read fuel0 (ds_in s) (ds_sck s) sr n in
        match r with
        | RRet d e =>
            let off1 := ds_off s + zlen d in
            let s1 := MkDs i1 (Some sr1) off1 (ds_ssc s) sck1 (ds_buf s) in
            match e with
            | Some EReadyToSave =>
                match sck1 with
                | None => (s1, k, RRet d None)
                | Some c =>
                    if negb (ds_ssc s) then (s1, k, RRet d None)
                    else if negb (cd_savable C (sr_d sr1)) then (s1, k, RRet d (Some (EOther 5)))
                    else
                      let ck := MkCk off1 (Some (MkDck off1 (Some c) (sr_roff sr1) (sr_woff sr1) (Some (sr_d sr1)))) in
                      let s2 := MkDs i1 (Some sr1) off1 (ds_ssc s) (if cf_clear cfg then None else sck1) (ds_buf s) in
                      let '(k1, cr) := cb ck k in
                      match cr with
                      | COk => (s2, k1, RRet d None)
                      | CErr e => (s2, k1, RRet d (Some e))
                      | CPanic => (s2, k1, RPanic)
                      end
                end
            | _ => (s1, k, RRet d e)
            end
        | RPanic => (MkDs i1 (Some sr1) (ds_off s) (ds_ssc s) sck1 (ds_buf s), k, RPanic)
        | RHang => (MkDs i1 (Some sr1) (ds_off s) (ds_ssc s) sck1 (ds_buf s), k, RHang)
        end
    end.

  (** bytebuf after a Read that delivered [d] into it *)
  Definition dcomp_setbuf (d : bytes) (s : dstate) : dstate :=
    match d with
    | [] => s
    | b :: _ => MkDs (ds_in s) (ds_sr s) (ds_off s) (ds_ssc s) (ds_sck s) b
    end.

  (** flatesource.go:158-172 ReadByte (gzip 165-179, bzip2 163-177, brotli 165-179):
      if the first Read returned no byte, whatever its error, read again *)
  Definition dcomp_readbyte {K} (cb : callback dck K) (s : dstate) (k : K) : dstate * K * bres :=
    match ds_sr s with
    | None => (s, k, BRet zero (Some EUninit))
    | Some _ =>
        match dcomp_read cb s k 1 with
        | (s1, k1, RRet [] _) =>
            match dcomp_read cb s1 k1 1 with
            | (s2, k2, RRet d e) => let s3 := dcomp_setbuf d s2 in (s3, k2, BRet (ds_buf s3) e)
            | (s2, k2, RPanic) => (s2, k2, BPanic)
            | (s2, k2, RHang) => (s2, k2, BHang)
            end
        | (s1, k1, RRet d e) => let s2 := dcomp_setbuf d s1 in (s2, k1, BRet (ds_buf s2) e)
        | (s1, k1, RPanic) => (s1, k1, BPanic)
        | (s1, k1, RHang) => (s1, k1, BHang)
        end
    end.

  (** Progress is the inner source's (flatesource.go:174-179 etc.) *)
  Definition dcomp_source : source := {|
    s_st := dstate; s_ck := dck;
    s_resume := dcomp_resume; s_setssc := dcomp_setssc; s_want := dcomp_want;
    s_progress := fun s => s_progress I (ds_in s);
    s_read := @dcomp_read; s_readbyte := @dcomp_readbyte |}.
End Decomp.
