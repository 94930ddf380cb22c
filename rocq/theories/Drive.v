(** Drive.v -- specification: a client reading from a Source, and stacks of
    sources. *)
From Verif Require Import Base Source Seek Decomp CodecSpec.

(** What a client does with a Source after Resume. *)
Inductive cop := CRead (n : nat) | CReadByte | CWant.

(** A save consumer that records every checkpoint and never fails. *)
Definition rec_cb {CK : Type} : callback CK (list (sckpt CK)) := fun c k => (k ++ [c], COk).

(** What the client saw of one operation: the data it got (what Read
    returned, also together with an error; the byte ReadByte returned, unless it
    came with an error), the error, and the checkpoints its save consumer
    received during the operation. *)
Record tev (CK : Type) := MkTev {
  te_op : cop; te_data : bytes; te_err : option gerr; te_cks : list (sckpt CK) }.
Arguments MkTev {CK}. Arguments te_op {CK}. Arguments te_data {CK}. Arguments te_err {CK}. Arguments te_cks {CK}.

(** All data of a history. *)
Definition tdata {CK} (evs : list (tev CK)) : bytes := concat (map te_data evs).

(** Perform the operations in order, also after errors. The flag is set if a
    call panicked or did not return (then the client stops). *)
Fixpoint trace (S : source) (st : s_st S) (ops : list cop) : s_st S * list (tev (s_ck S)) * bool :=
  match ops with
  | [] => (st, [], false)
  | CWant :: ops' =>
      let '(st2, evs, bad) := trace S (s_want S st) ops' in (st2, MkTev CWant [] None [] :: evs, bad)
  | CRead n :: ops' =>
      match s_read S rec_cb st [] n with
      | (st1, cks, RRet d e) =>
          let '(st2, evs, bad) := trace S st1 ops' in (st2, MkTev (CRead n) d e cks :: evs, bad)
      | (st1, cks, _) => (st1, [], true)
      end
  | CReadByte :: ops' =>
      match s_readbyte S rec_cb st [] with
      | (st1, cks, BRet b e) =>
          let '(st2, evs, bad) := trace S st1 ops' in
          (st2, MkTev CReadByte (match e with None => [b] | Some _ => [] end) e cks :: evs, bad)
      | (st1, cks, _) => (st1, [], true)
      end
  end.

(** The client never reads into an empty buffer; it uses ReadByte only if
    [byt]. *)
Definition op_ok (byt : bool) (o : cop) : Prop :=
  match o with CRead n => (0 < n)%nat | CReadByte => byt = true | CWant => True end.

(** [tr_ok D tm fault late pos evs]: a history that is correct for a stream
    that consists of [D] and then ends with [tm], starting at byte [pos]:
    each operation delivers the next bytes of [D]; an error is [tm], with all
    of [D] delivered, or stems from a [fault] of the storage and is not io.EOF
    nor the internal ready-to-save signal; checkpoints carry the position of
    the operation that emitted them. *)
Fixpoint tr_ok {CK} (D : bytes) (tm : gerr) (fault : Prop) (late : bool) (pos : nat) (evs : list (tev CK)) : Prop :=
  match evs with
  | [] => True
  | ev :: evs' =>
      let d := te_data ev in
      d = slice D pos (length d) /\ (pos + length d <= length D)%nat /\
      (forall n, te_op ev = CRead n -> (length d <= n)%nat) /\
      (te_op ev = CReadByte -> te_err ev = None -> length d = 1%nat) /\
      (forall e, te_err ev = Some e ->
         e = tm /\ (pos + length d)%nat = length D \/ fault /\ e <> EEof /\ e <> EReadyToSave) /\
      (forall c, In c (te_cks ev) ->
         Z.of_nat pos <= ck_off c <= zlen D /\
         match te_op ev with
         | CRead _ => ck_off c = Z.of_nat pos \/ late = true /\ ck_off c = Z.of_nat (pos + length d)
         | CReadByte => ck_off c <= Z.of_nat pos + 1
         | CWant => False
         end) /\
      tr_ok D tm fault late (pos + length d) evs'
  end.

(** ** Stacks: a seek source, or a decompressing source over a stack. *)
Inductive stk := KSeek | KDec (C : codec) (cfg : dcfg) (fuel : nat) (s : stk).

Fixpoint stk_source (k : stk) : source :=
  match k with
  | KSeek => seek_source
  | KDec C cfg fuel s => dcomp_source C cfg (stk_source s) fuel
  end.

(** A newly constructed stack (seeksource.NewWithSize, flatesource.New, ...)
    over the section [start, start+size) of a file. *)
Fixpoint stk_new (k : stk) (rs : rstate) (start size : Z) : s_st (stk_source k) :=
  match k with
  | KSeek => MkSeek rs None false false start 0 size
  | KDec C cfg fuel s => dcomp_new C (stk_source s) (stk_new s rs start size)
  end.

Definition stk_flag (b : bool) (P : Prop) : Prop := b = true -> P.

(** [stk_den pol data start size k D tm bound byt pol' late]: the stack [k] over
    the section of [data] stands for the bytes [D] followed by the error [tm].
    The other parameters record which guarantees its layers allow:
    [byt]: ReadByte may be used (no layer returns its last data together with
    io.EOF or has empty blocks); [pol']: io.EOF never accompanies data;
    [late]: checkpoints may be taken after the data of the same Read. *)
Inductive stk_den (pol : bool) (data : bytes) (start size : Z)
    : stk -> bytes -> gerr -> nat -> bool -> bool -> bool -> Prop :=
| DenSeek :
    0 <= start -> 0 <= size -> start + size < two63 ->
    stk_den pol data start size KSeek (slice data (Z.to_nat start) (Z.to_nat size)) EEof
      (length (slice data (Z.to_nat start) (Z.to_nat size))) true pol false
| DenDec C cfg fuel s ID itm b pi li N D tm byt :
    stk_den pol data start size s ID itm b true pi li ->
    crun C N (cd_init C) ID itm = Some (D, tm) -> tm <> EReadyToSave ->
    (N < fuel)%nat -> (b < fuel)%nat ->
    saves_ok C -> starts_by_reading C ->
    (pi = true \/ saves_before_end C N (cd_init C) ID) ->
    stk_flag byt (cd_eager C = false /\ no_empty_block C N (cd_init C) ID false) ->
    stk_den pol data start size (KDec C cfg fuel s) D tm (N + length D) byt (negb (cd_eager C)) (cd_eager_save C).

Definition rs_of (data : bytes) (rs : rstate) : Prop := rs_data rs = data.
(** the reader never fails *)
Definition rs_good (rs : rstate) : Prop := ~ In RsFail (rs_orc rs) /\ ~ In true (rs_sorc rs).
(** the reader never returns io.EOF together with data *)
Definition rs_separate (rs : rstate) : Prop := forall k, ~ In (RsChunk k true) (rs_orc rs).

(** The life of a source object. [life rs st b]: the stack was constructed over
    a reader [rs] of [data], given a save consumer, and then successfully
    resumed any number of times (from the beginning, or from any checkpoint
    that some such source emitted), with any client operations after each
    Resume; [b] tells whether it was resumed at all. [emitted c]: the
    checkpoints that a client can come to hold, from this or other source
    objects over the same data. *)
Inductive life (pol : bool) (data : bytes) (start size : Z) (k : stk) (byt : bool)
    : rstate -> s_st (stk_source k) -> bool -> Prop :=
| LifeNew rs :
    rs_of data rs -> stk_flag pol (rs_separate rs) ->
    life pol data start size k byt rs (s_setssc (stk_source k) (stk_new k rs start size)) false
| LifeResume rs st b c st' z :
    life pol data start size k byt rs st b ->
    (forall x, c = Some x -> emitted pol data start size k byt x) ->
    s_resume (stk_source k) st c = (st', Ok z) ->
    life pol data start size k byt rs st' true
| LifeRun rs st ops st' evs bad :
    life pol data start size k byt rs st true -> Forall (op_ok byt) ops ->
    trace (stk_source k) st ops = (st', evs, bad) ->
    life pol data start size k byt rs st' true
with emitted (pol : bool) (data : bytes) (start size : Z) (k : stk) (byt : bool) : sckpt (s_ck (stk_source k)) -> Prop :=
| Emitted rs st ops st' evs bad ev c :
    life pol data start size k byt rs st true -> Forall (op_ok byt) ops ->
    trace (stk_source k) st ops = (st', evs, bad) -> In ev evs -> In c (te_cks ev) ->
    emitted pol data start size k byt c.

(** ** What a seek source has to do about saving.
    Expected checkpoints of each operation of a history that starts at byte
    [pos] of a source of [size] bytes, [w] telling whether WantSave was called
    since the last read: the next Read (of a non-empty buffer) or ReadByte that
    is not at the end emits one checkpoint, with the position before it. *)
Fixpoint expect_cks (size pos : nat) (w : bool) (evs : list (tev unit)) : list (list (sckpt unit)) :=
  match evs with
  | [] => []
  | ev :: evs' =>
      let pos' := (pos + length (te_data ev))%nat in
      match te_op ev with
      | CWant => [] :: expect_cks size pos' true evs'
      | CRead O => [] :: expect_cks size pos' w evs'
      | _ =>
          if (pos <? size)%nat
          then (if w then [MkCk (Z.of_nat pos) None] else []) :: expect_cks size pos' false evs'
          else [] :: expect_cks size pos' w evs'
      end
  end.

(** ** Counting sources.
    Values the callback has to receive during a history that starts at byte
    [pos], [n] bytes after the last call: one call each time more than [thr]
    bytes were delivered since the last call, with the position reached. *)
Fixpoint expect_log {CK} (thr base pos n : Z) (evs : list (tev CK)) : list Z :=
  match evs with
  | [] => []
  | ev :: evs' =>
      let l := zlen (te_data ev) in
      if n + l >? thr then (base + pos + l) :: expect_log thr base (pos + l) 0 evs'
      else expect_log thr base (pos + l) (n + l) evs'
  end.
