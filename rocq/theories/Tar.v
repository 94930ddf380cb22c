(** Tar.v -- model of tarextractor/tarextractor.go.
    github.com/itchio/arkive/tar (an external package, not in /repo) is
    represented by [tfmt]: an arbitrary header parser, and by [sr_next],
    [sr_read], [sr_save] below, which follow archive/tar. *)
From Verif Require Import Base Source Seek Decomp Drive Copier Sink Zip.

(** The Typeflag of a header, as tarextractor.go:164-175 distinguishes them:
    tar.TypeDir, tar.TypeSymlink, tar.TypeReg, any other. *)
Inductive tflag := TfDir | TfSymlink | TfReg | TfOther.

(** What sr.Next() returns (tarextractor.go:148): the fields of *tar.Header
    that savior uses, and what the reader itself remembers: [th_nb] bytes of data
    follow, and [th_pad] bytes of padding after these. *)
Record theader := MkTh {
  th_name : bytes; th_size : Z; th_mode : Z; th_type : tflag; th_link : bytes;
  th_nb : nat; th_pad : nat }.

(** External (arkive/tar): the header parser. It asks for bytes (io.ReadFull:
    it gets fewer than it asked for iff the stream ended with io.EOF), and finally
    yields a header or an error, io.EOF for the end of the archive. [tf_init pad]:
    about to skip [pad] bytes of padding and to read the next header. [tf_eager]:
    whether Read returns io.EOF together with the last data (this differs between
    versions of archive/tar). *)
Inductive tstep (st : Type) := TsNeed (n : nat) (k : bytes -> st) | TsHdr (h : theader) | TsFail (e : gerr).
Arguments TsNeed {st}. Arguments TsHdr {st}. Arguments TsFail {st}.
Record tfmt := MkTfmt {
  tf_st : Type;
  tf_init : nat -> tf_st;
  tf_step : tf_st -> tstep tf_st;
  tf_eager : bool }.

(** tar.SaverReader and tar.Checkpoint (tarextractor.go:23-26, :108): bytes read so far
    (Roffset), bytes of data of the current entry left, padding after them. *)
Record sr := MkSr { sr_off : Z; sr_nb : nat; sr_pad : nat }.

(** tarextractor.go:23-26 TarExtractorState; nil pointers are None *)
Record tstate := MkTs { ts_result : option (list entry); ts_tar : option sr }.

(** What a source emits while sr.Next() runs is dropped: entry is nil
    (tarextractor.go:104-108, :142). *)
Definition drop_cb {CK} : callback CK unit := fun _ u => (u, COk).

(** External: the loop of the header parser. [off]: bytes read so far. One unit
    of fuel per step. *)
Fixpoint tar_parse (F : tfmt) (S : source) (fuel : nat) (src : s_st S) (off : Z) (st : tf_st F)
    : s_st S * Z * res theader :=
  match fuel with
  | O => (src, off, Hang)
  | Datatypes.S f =>
      match tf_step F st with
      | TsHdr h => (src, off, Ok h)
      | TsFail e => (src, off, Err e)
      | TsNeed n k =>
          match read_full S drop_cb fuel src tt n with
          | (src', _, Ok (d, None)) => tar_parse F S f src' (off + zlen d) (k d)
          | (src', _, Ok (d, Some EEof)) => tar_parse F S f src' (off + zlen d) (k d)
          | (src', _, Ok (d, Some e)) => (src', off + zlen d, Err e)
          | (src', _, Err e) => (src', off, Err e)
          | (src', _, Panic) => (src', off, Panic)
          | (src', _, Hang) => (src', off, Hang)
          end
      end
  end.

(** External: SaverReader.Next: skip the rest of the entry, parse a header.
    Simplification: the rest is skipped in requests as large as possible. *)
Definition sr_next (F : tfmt) (S : source) (fuel : nat) (src : s_st S) (s : sr) : s_st S * sr * res theader :=
  match read_full S drop_cb fuel src tt (sr_nb s) with
  | (src1, _, Ok (d, None)) =>
      match tar_parse F S fuel src1 (sr_off s + zlen d) (tf_init F (sr_pad s)) with
      | (src2, off, Ok h) => (src2, MkSr off (th_nb h) (th_pad h), Ok h)
      | (src2, off, r) => (src2, MkSr off 0 0, r)
      end
  | (src1, _, Ok (d, Some e)) =>
      (src1, MkSr (sr_off s + zlen d) (sr_nb s - length d) (sr_pad s), Err (match e with EEof => EUnexpectedEof | _ => e end))
  | (src1, _, Err e) => (src1, s, Err e)
  | (src1, _, Panic) => (src1, s, Panic)
  | (src1, _, Hang) => (src1, s, Hang)
  end.

(** External: SaverReader.Read into a buffer of [n] bytes. *)
Definition sr_read (F : tfmt) (S : source) {K} (cb : callback (s_ck S) K) (src : s_st S) (s : sr) (k : K) (n : nat)
    : s_st S * sr * K * rres :=
  match Nat.min n (sr_nb s) with
  | O => (src, s, k, RRet [] (Some EEof))
  | n' =>
      match s_read S cb src k n' with
      | (src', k', RRet d e) =>
          let left := (sr_nb s - length d)%nat in
          (src', MkSr (sr_off s + zlen d) left (sr_pad s), k',
           RRet d (match e with
                   | Some EEof => if (left =? 0)%nat then Some EEof else Some EUnexpectedEof
                   | Some e => Some e
                   | None => if tf_eager F && (left =? 0)%nat then Some EEof else None
                   end))
      | (src', k', r) => (src', s, k', r)
      end
  end.

(** tarextractor.go:158-172: the Entry for a header; None for the types that are
    ignored. os.FileMode is uint32. *)
Definition tar_entry_of (h : theader) : option entry :=
  let e kd link := MkEntry (th_name h) kd (th_mode h mod 2 ^ 32) 0 (th_size h) 0 link in
  match th_type h with
  | TfDir => Some (e EkDir [])
  | TfSymlink => Some (e EkSymlink (th_link h))
  | TfReg => Some (e EkFile [])
  | TfOther => None
  end.

(** tarextractor.go:250-272 Features: what the source supports decides *)
Definition tar_support (sf : resume_support) : resume_support :=
  match sf with RsBlock => RsBlock | _ => RsNone end.

Section Tar.
  Context (SK : sink) (F : tfmt) (S : source).
  Definition teck : Type := eckpt (s_ck S) tstate.
  Context (SV : saver (s_ck S) tstate).

  (** State of a run: the sink, the checkpoint object, the extractor's state
      object, the save consumer, copier.stop, stopError, the values given to
      consumer.Progress, and a record (not part of the program) of every
      checkpoint passed to Save with the state of the sink at that time. *)
  Record tx := MkTx {
    t_sink : k_st SK; t_ck : teck; t_state : tstate; t_sv : sv_st SV; t_stop : bool; t_stoperr : option gerr;
    t_prog : list Q; t_log : list (teck * k_st SK) }.
  Definition tx_sink (x : tx) (s : k_st SK) : tx := MkTx s (t_ck x) (t_state x) (t_sv x) (t_stop x) (t_stoperr x) (t_prog x) (t_log x).
  Definition tx_ck (x : tx) (c : teck) : tx := MkTx (t_sink x) c (t_state x) (t_sv x) (t_stop x) (t_stoperr x) (t_prog x) (t_log x).
  Definition tx_state (x : tx) (ts : tstate) : tx := MkTx (t_sink x) (t_ck x) ts (t_sv x) (t_stop x) (t_stoperr x) (t_prog x) (t_log x).
  Definition tx_sv (x : tx) (v : sv_st SV) : tx := MkTx (t_sink x) (t_ck x) (t_state x) v (t_stop x) (t_stoperr x) (t_prog x) (t_log x).
  Definition tx_stop (x : tx) (b : bool) : tx := MkTx (t_sink x) (t_ck x) (t_state x) (t_sv x) b (t_stoperr x) (t_prog x) (t_log x).
  Definition tx_stoperr (x : tx) (e : gerr) : tx := MkTx (t_sink x) (t_ck x) (t_state x) (t_sv x) (t_stop x) (Some e) (t_prog x) (t_log x).
  Definition tx_prog (x : tx) (q : Q) : tx := MkTx (t_sink x) (t_ck x) (t_state x) (t_sv x) (t_stop x) (t_stoperr x) (t_prog x ++ [q]) (t_log x).

  Definition tck_woff (c : teck) : Z := match ec_entry c with Some e => en_woff e | None => 0 end.
  Definition tck_set_woff (c : teck) (w : Z) : teck :=
    MkEck (ec_src c) (ec_index c) (option_map (fun e => set_woff e w) (ec_entry c)) (ec_prog c) (ec_data c).

  (** tarextractor.go:102-134 OnSave, while a file is being copied (entry is not
      nil). [s]: the tar reader's position, [prog]: te.source.Progress().
      Simplifications: sr.Save() does not fail; both values are those from before
      the Read during which the source calls OnSave. The writer is not synced
      (tarextractor.go:122). *)
  Definition tar_on_save (prog : Q) (s : sr) : callback (s_ck S) tx :=
    fun sc x =>
      let ts := MkTs (ts_result (t_state x)) (Some s) in
      let c := MkEck (Some sc) (ec_index (t_ck x)) (ec_entry (t_ck x)) (Some prog) (Some ts) in
      match sv_save SV (t_sv x) c with
      | (v', r) =>
          let log := t_log x ++ [(c, t_sink x)] in
          match r with
          | inr e => (MkTx (t_sink x) c ts v' (t_stop x) (t_stoperr x) (t_prog x) log, CErr (with_stack e))
          | inl true => (MkTx (t_sink x) c ts v' true (Some EStop) (t_prog x) log, COk)
          | inl false => (MkTx (t_sink x) c ts v' (t_stop x) (t_stoperr x) (t_prog x) log, COk)
          end
      end.

  (** tarextractor.go:201-212: the parameters given to copier.Do *)
  Definition tar_cenv (w : k_w SK) : cenv (s_st S * sr * tx) := {|
    ce_read := fun X n =>
      let '(src, s, x) := X in
      let '(src', s', x', r) := sr_read F S (tar_on_save (s_progress S src) s) src s x n in ((src', s', x'), r);
    ce_write := fun X d =>
      let '(src, s, x) := X in
      let '(st', (n, adv, e)) := k_write SK (t_sink x) w d in
      ((src, s, tx_ck (tx_sink x st') (tck_set_woff (t_ck x) (tck_woff (t_ck x) + adv))), (n, e));
    ce_should := fun X n =>
      let '(src, s, x) := X in
      let '(v', b) := sv_should SV (t_sv x) n in ((src, s, tx_sv x v'), b);
    ce_want := fun X => let '(src, s, x) := X in (s_want S src, s, x);
    ce_emit := fun X => let '(src, s, x) := X in (src, s, tx_prog x (s_progress S src));
    ce_stopped := fun X => t_stop (snd X);
    ce_setstop := fun b X => (fst X, tx_stop (snd X) b) |}.

  (** tarextractor.go:221-223 *)
  Definition tar_reset (x : tx) : tx :=
    let c := t_ck x in tx_ck x (MkEck None (ec_index c) None (ec_prog c) None).

  (** tarextractor.go:183-225: extract an entry (the checkpoint's). The deferred
      w.Close() (:199) runs on return; its error is dropped. *)
  Definition tar_extract (fuel : nat) (src : s_st S) (s : sr) (e : entry) (x : tx) : s_st S * sr * tx * res unit :=
    match en_kind e with
    | EkDir =>
        match k_mkdir SK (t_sink x) e with
        | (st', None) => (src, s, tar_reset (tx_sink x st'), Ok tt)
        | (st', Some e') => (src, s, tx_sink x st', Err (with_stack e'))
        end
    | EkSymlink =>
        match k_symlink SK (t_sink x) e (en_link e) with
        | (st', None) => (src, s, tar_reset (tx_sink x st'), Ok tt)
        | (st', Some e') => (src, s, tx_sink x st', Err (with_stack e'))
        end
    | EkFile =>
        match k_getw SK (t_sink x) e with
        | (st', Ok w) =>
            let '((src2, s2, x2), r) := copier_do (tar_cenv w) fuel (src, s, tx_sink x st') in
            let closed y := tx_sink y (fst (k_closew SK (t_sink y) w)) in
            match r with
            | Ok _ =>
                let app l := match ec_entry (t_ck x2) with Some e' => l ++ [e'] | None => l end in
                let ts := MkTs (option_map app (ts_result (t_state x2))) (ts_tar (t_state x2)) in
                (src2, s2, closed (tar_reset (tx_prog (tx_state x2 ts) (s_progress S src2))), Ok tt)
            | Err e' => (src2, s2, closed x2, Err (with_stack e'))
            | Panic => (src2, s2, closed x2, Panic)
            | Hang => (src2, s2, x2, Hang)
            end
        | (st', Err e') => (src, s, tx_sink x st', Err (with_stack e'))
        | (st', Panic) => (src, s, tx_sink x st', Panic)
        | (st', Hang) => (src, s, tx_sink x st', Hang)
        end
    | EkOther _ => (src, s, tar_reset x, Ok tt)
    end.

  (** tarextractor.go:141-226: one iteration, entryIndex being [i] *)
  Definition tar_iter (fuel : nat) (src : s_st S) (s : sr) (i : Z) (x : tx) : s_st S * sr * tx * res unit :=
    let c := t_ck x in
    let c1 := MkEck (ec_src c) i (ec_entry c) (ec_prog c) (ec_data c) in
    let x1 := tx_ck x c1 in
    match ec_entry c1 with
    | Some e => tar_extract fuel src s e x1
    | None =>
        match sr_next F S fuel src s with
        | (src', s', Ok h) =>
            match tar_entry_of h with
            | None => (src', s', x1, Ok tt)
            | Some e => tar_extract fuel src' s' e (tx_ck x1 (MkEck (ec_src c1) i (Some e) (ec_prog c1) (ec_data c1)))
            end
        | (src', s', Err EEof) => (src', s', tx_stoperr x1 EEof, Ok tt)
        | (src', s', Err e') => (src', s', x1, Err (with_stack e'))
        | (src', s', Panic) => (src', s', x1, Panic)
        | (src', s', Hang) => (src', s', x1, Hang)
        end
    end.

  (** tarextractor.go:139-230 the loop; one unit of fuel [lf] per iteration *)
  Fixpoint tar_loop (fuel lf : nat) (src : s_st S) (s : sr) (i : Z) (x : tx) : tx * res unit :=
    match t_stoperr x with
    | Some _ => (x, Ok tt)
    | None =>
        match lf with
        | O => (x, Hang)
        | Datatypes.S lf' =>
            match tar_iter fuel src s i x with
            | (src', s', x', Ok _) => tar_loop fuel lf' src' s' (i + 1) x'
            | (_, _, x', r) => (x', ws r)
            end
        end
    end.

  (** Outcome of Resume: the states of sink and save consumer, the caller's
      checkpoint object as Resume leaves it, the record of saves, the reported
      progress, the returned entries or error, and the object that [checkpoint]
      points to when Resume returns, if not nil -- the one every call of Save was
      given, whether it is the caller's or (fresh runs) Resume's own. *)
  Record tout := MkTout {
    to_sink : k_st SK; to_sv : sv_st SV; to_ck : option teck;
    to_log : list (teck * k_st SK); to_prog : list Q; to_res : res (list entry); to_obj : option teck }.

  (** tarextractor.go:51-53: whether a checkpoint can be resumed from *)
  Definition tar_point (c : option teck) : option (teck * tstate * sr) :=
    match c with
    | Some ck =>
        match ec_data ck with
        | Some (MkTs (Some l) (Some s)) => Some (ck, MkTs (Some l) (Some s), s)
        | _ => None
        end
    | None => None
    end.

  (** tarextractor.go:97-247: the rest of Resume. [keep]: the caller's checkpoint
      object is the one worked on. *)
  Definition tar_run (fuel : nat) (src : s_st S) (s : sr) (ck : teck) (ts : tstate) (keep : teck -> option teck)
      (st : k_st SK) (v : sv_st SV) : tout :=
    let '(x, r) := tar_loop fuel fuel (s_setssc S src) s (ec_index ck) (MkTx st ck ts v false None [] []) in
    MkTout (t_sink x) (t_sv x) (keep (t_ck x)) (t_log x) (t_prog x)
      (match r with
       | Ok _ =>
           match t_stoperr x with
           | Some EEof | None => Ok (match ts_result (t_state x) with Some l => l | None => [] end)
           | Some e => Err e
           end
       | Err e => Err (with_stack e)
       | Panic => Panic
       | Hang => Hang
       end) (Some (t_ck x)).

  (** tarextractor.go:46-248 Resume. [src]: te.source, not used before.
      Simplification: tarCheckpoint.Resume and tar.NewSaverReader do not fail. *)
  Definition tar_resume (src : s_st S) (fuel : nat) (c : option teck) (st : k_st SK) (v : sv_st SV) : tout :=
    match tar_point c with
    | Some (ck, ts, s) =>
        let fail r := MkTout st v (Some ck) [] [] r (Some ck) in
        match s_resume S src (ec_src ck) with
        | (src1, Ok offset) =>
            let '(src2, _, r2) :=
              if offset <? sr_off s then discard_by_read S drop_cb fuel src1 tt (sr_off s - offset)
              else (src1, tt, Ok tt) in
            match r2 with
            | Ok _ => tar_run fuel src2 s ck ts Some st v
            | Err e => fail (Err (with_stack e))
            | Panic => fail Panic
            | Hang => fail Hang
            end
        | (_, Err e) => fail (Err (with_stack e))
        | (_, Panic) => fail Panic
        | (_, Hang) => fail Hang
        end
    | None =>
        match s_resume S src None with
        | (src1, Ok _) => tar_run fuel src1 (MkSr 0 0 0) (MkEck None 0 None (Some 0%Q) None) (MkTs (Some []) None) (fun _ => c) st v
        | (_, Err e) => MkTout st v c [] [] (Err (with_stack e)) c
        | (_, Panic) => MkTout st v c [] [] Panic c
        | (_, Hang) => MkTout st v c [] [] Hang c
        end
    end.
End Tar.
