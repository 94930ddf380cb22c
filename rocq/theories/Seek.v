(** Seek.v -- model of seeksource/seeksource.go, including the bufio.Reader
    and the io.ReadSeeker it sits on. *)
From Verif Require Import Base Source.

(** ** The underlying io.ReadSeeker (bytes.Reader, os.File, io.SectionReader ...).
    It holds fixed data; each Read returns an arbitrary non-empty prefix of
    what is left (chosen by the oracle [rs_orc]), possibly together with io.EOF
    when it reaches the end, or fails. Seeks may fail ([rs_sorc]).
    Simplification: Read never returns (0, nil) for a non-empty buffer, which
    io.Reader discourages and none of the readers used by savior does. *)
Inductive rsev := RsChunk (k : nat) (eof : bool) | RsFail.
Record rstate := MkRs { rs_data : bytes; rs_pos : Z; rs_orc : list rsev; rs_sorc : list bool }.

(** io.Seeker.Seek(off, io.SeekStart): negative offsets are an error, offsets
    beyond the end are fine. *)
Definition rs_seek (r : rstate) (off : Z) : rstate * option gerr :=
  let fail := match rs_sorc r with b :: _ => b | [] => false end in
  let so := match rs_sorc r with _ :: t => t | [] => [] end in
  if fail then (MkRs (rs_data r) (rs_pos r) (rs_orc r) so, Some EIO)
  else if off <? 0 then (MkRs (rs_data r) (rs_pos r) (rs_orc r) so, Some EInval)
  else (MkRs (rs_data r) off (rs_orc r) so, None).

(** io.Reader.Read(p) with len(p) = n > 0 *)
Definition rs_read (r : rstate) (n : nat) : rstate * bytes * option gerr :=
  let avail := skipn (Z.to_nat (rs_pos r)) (rs_data r) in
  let orc' := match rs_orc r with _ :: t => t | [] => [] end in
  match rs_orc r with
  | RsFail :: _ => (MkRs (rs_data r) (rs_pos r) orc' (rs_sorc r), [], Some EIO)
  | ev =>
      match avail with
      | [] => (MkRs (rs_data r) (rs_pos r) orc' (rs_sorc r), [], Some EEof)
      | _ =>
          let '(lim, eof) := match ev with RsChunk k e :: _ => (Datatypes.S k, e) | _ => (n, false) end in
          let d := firstn (Nat.min n lim) avail in
          let e := if eof && (List.length avail <=? List.length d)%nat then Some EEof else None in
          (MkRs (rs_data r) (rs_pos r + zlen d) orc' (rs_sorc r), d, e)
      end
  end.

(** ** bufio.Reader (Go standard library), default size 4096 *)
Definition bufsize : nat := Z.to_nat 4096.
Record bstate := MkBuf { b_buf : bytes; b_err : option gerr }.
Definition buf_empty : bstate := MkBuf [] None.

(** bufio.Reader.Read *)
Definition b_read (b : bstate) (r : rstate) (n : nat) : bstate * rstate * bytes * option gerr :=
  if (n =? 0)%nat then
    match b_buf b with
    | [] => (MkBuf [] None, r, [], b_err b)
    | _ => (b, r, [], None)
    end
  else match b_buf b with
  | [] =>
      match b_err b with
      | Some e => (MkBuf [] None, r, [], Some e)
      | None =>
          if (bufsize <=? n)%nat then
            (* large read, empty buffer: read directly into p *)
            let '(r', d, e) := rs_read r n in (MkBuf [] None, r', d, e)
          else
            (* one read into the buffer *)
            let '(r', d, e) := rs_read r bufsize in
            match d with
            | [] => (MkBuf [] None, r', [], e)
            | _ => (MkBuf (skipn n d) e, r', firstn n d, None)
            end
      end
  | _ => (MkBuf (skipn n (b_buf b)) (b_err b), r, firstn n (b_buf b), None)
  end.

(** bufio.Reader.ReadByte *)
Definition b_readbyte (b : bstate) (r : rstate) : bstate * rstate * (byte + gerr) :=
  match b_buf b with
  | c :: rest => (MkBuf rest (b_err b), r, inl c)
  | [] =>
      match b_err b with
      | Some e => (MkBuf [] None, r, inr e)
      | None =>
          let '(r', d, e) := rs_read r bufsize in
          match d with
          | c :: rest => (MkBuf rest e, r', inl c)
          | [] => (MkBuf [] None, r', inr (match e with Some e => e | None => EOther 0 (* io.ErrNoProgress *) end))
          end
      end
  end.

(** ** seekSource *)

(** seeksource.go:14-25 *)
Record sstate := MkSeek {
  ss_rs : rstate;
  ss_br : option bstate;     (* nil before the first Resume *)
  ss_ssc : bool;             (* ssc != nil *)
  ss_want : bool;            (* wantSave *)
  ss_start : Z;              (* sectionStart *)
  ss_off : Z;                (* offset *)
  ss_size : Z }.

(** seeksource.go:48-53 NewWithSize; FromBytes (42-44) and FromFile (29-40) are
    instances (FromFile with the size from Stat, 0 if Stat fails). *)
Definition seek_new (rs : rstate) (size : Z) : sstate :=
  MkSeek rs None false false 0 0 size.
Definition seek_from_bytes (buf : bytes) : sstate :=
  seek_new (MkRs buf 0 [] []) (zlen buf).

(** seeksource.go:62-70 SetSourceSaveConsumer (non-nil consumer), WantSave *)
Definition seek_setssc (s : sstate) : sstate :=
  MkSeek (ss_rs s) (ss_br s) true (ss_want s) (ss_start s) (ss_off s) (ss_size s).
Definition seek_want (s : sstate) : sstate :=
  MkSeek (ss_rs s) (ss_br s) (ss_ssc s) true (ss_start s) (ss_off s) (ss_size s).

(** seeksource.go:72-94 Resume *)
Definition seek_resume (s : sstate) (c : option (sckpt unit)) : sstate * res Z :=
  let go (off : Z) : sstate * res Z :=
    let '(rs', e) := rs_seek (ss_rs s) (wrap64 (ss_start s + off)) in
    match e with
    | Some e => (MkSeek rs' (ss_br s) (ss_ssc s) (ss_want s) (ss_start s) off (ss_size s), Err e)
    | None => (MkSeek rs' (Some buf_empty) (ss_ssc s) (ss_want s) (ss_start s) off (ss_size s), Ok off)
    end in
  match c with
  | None => go 0
  | Some c => if ck_off c <? 0 then (s, Err ENegOffset) else go (ck_off c)
  end.

(** seeksource.go:96-102 *)
Definition seek_tell (s : sstate) : Z := ss_off s.
Definition seek_size (s : sstate) : Z := ss_size s.

(** seeksource.go:104-123 Section. start+size is an int64 addition (it can
    wrap around), and so is sectionStart+start. *)
Definition seek_section (s : sstate) (start size : Z) : res sstate :=
  if start <? 0 then Err (EOther 1)
  else if size <? 0 then Err (EOther 2)
  else if wrap64 (start + size) >? ss_size s then Err (EOther 3)
  else Ok (MkSeek (ss_rs s) None false false (wrap64 (ss_start s + start)) 0 size).

(** seeksource.go:165-176 handleSave: the error returned by Save is dropped. *)
Definition seek_handle_save {K} (cb : callback unit K) (s : sstate) (k : K) : sstate * K * cres :=
  if ss_want s then
    let s' := MkSeek (ss_rs s) (ss_br s) (ss_ssc s) false (ss_start s) (ss_off s) (ss_size s) in
    if ss_ssc s then
      let '(k', r) := cb (MkCk (ss_off s) None) k in
      (s', k', match r with CPanic => CPanic | _ => COk end)
    else (s', k, COk)
  else (s, k, COk).

(** seeksource.go:125-146 Read. [buf[:remaining]] with a negative [remaining]
    is a run-time panic. *)
Definition seek_read {K} (cb : callback unit K) (s : sstate) (k : K) (n : nat) : sstate * K * rres :=
  match ss_br s with
  | None => (s, k, RRet [] (Some EUninit))
  | Some _ =>
      if (n =? 0)%nat then (s, k, RRet [] None)
      else
        let remaining := ss_size s - ss_off s in
        if remaining =? 0 then (s, k, RRet [] (Some EEof))
        else if (Z.of_nat n >? remaining) && (remaining <? 0) then (s, k, RPanic)
        else
          let n' := if Z.of_nat n >? remaining then Z.to_nat remaining else n in
          let '(s1, k1, r) := seek_handle_save cb s k in
          match r, ss_br s1 with
          | CPanic, _ => (s1, k1, RPanic)
          | _, None => (s1, k1, RPanic)
          | _, Some b =>
              let '(b', rs', d, e) := b_read b (ss_rs s1) n' in
              (MkSeek rs' (Some b') (ss_ssc s1) (ss_want s1) (ss_start s1) (ss_off s1 + zlen d) (ss_size s1), k1, RRet d e)
          end
  end.

(** seeksource.go:148-163 ReadByte *)
Definition seek_readbyte {K} (cb : callback unit K) (s : sstate) (k : K) : sstate * K * bres :=
  match ss_br s with
  | None => (s, k, BRet zero (Some EUninit))
  | Some _ =>
      if ss_off s =? ss_size s then (s, k, BRet zero (Some EEof))
      else
        let '(s1, k1, r) := seek_handle_save cb s k in
        match r, ss_br s1 with
        | CPanic, _ => (s1, k1, BPanic)
        | _, None => (s1, k1, BPanic)
        | _, Some b =>
            match b_readbyte b (ss_rs s1) with
            | (b', rs', inl c) =>
                (MkSeek rs' (Some b') (ss_ssc s1) (ss_want s1) (ss_start s1) (ss_off s1 + 1) (ss_size s1), k1, BRet c None)
            | (b', rs', inr e) =>
                (MkSeek rs' (Some b') (ss_ssc s1) (ss_want s1) (ss_start s1) (ss_off s1) (ss_size s1), k1, BRet zero (Some e))
            end
        end
  end.

(** seeksource.go:178-185 Progress *)
Definition seek_progress (s : sstate) : Q :=
  if ss_size s >? 0 then inject_Z (ss_off s) / inject_Z (ss_size s) else 0%Q.

Definition seek_source : source := {|
  s_st := sstate; s_ck := unit;
  s_resume := seek_resume; s_setssc := seek_setssc; s_want := seek_want;
  s_progress := seek_progress;
  s_read := @seek_read; s_readbyte := @seek_readbyte |}.
