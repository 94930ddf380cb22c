(** Source.v -- model of source.go: checkpoints, the Source interface and
    DiscardByRead. *)
From Verif Require Import Base.
From Coq Require Export QArith.
#[global] Open Scope Z_scope.

(** source.go:10-20 SourceCheckpoint. [Data any] is modelled as
    [option CK]: [Some d] when the dynamic type of Data is the one the
    receiving source looks for (e.g. *FlateSourceCheckpoint), [None] for nil or
    for any other dynamic type: that is all a type assertion
    [checkpoint.Data.( *T)] can observe. *)
Record sckpt (CK : Type) := MkCk { ck_off : Z; ck_data : option CK }.
Arguments MkCk {CK} ck_off ck_data.
Arguments ck_off {CK} _.
Arguments ck_data {CK} _.

(** What a call of SourceSaveConsumer.Save (source.go:91-96) returns. *)
Inductive cres := COk | CErr (e : gerr) | CPanic.

(** The consumer's Save method, acting on whatever state [K] the consumer
    owns. It is invoked synchronously, in the middle of Read/ReadByte. *)
Definition callback (CK K : Type) := sckpt CK -> K -> K * cres.

(** Result of Read: the bytes put in the buffer and the error. *)
Inductive rres := RRet (d : bytes) (e : option gerr) | RPanic | RHang.
(** Result of ReadByte. The byte is meaningful also when an error is
    returned (Go returns both). *)
Inductive bres := BRet (b : byte) (e : option gerr) | BPanic | BHang.

(** source.go:37-61 the Source interface.
    [s_read S K cb st k n] is Read(buf) with len(buf) = n on state [st], while
    the registered consumer is [cb] with state [k]. Whether a consumer is
    registered at all is part of the state ([s_setssc]).
    Simplification: Progress is an exact rational instead of a float64. *)
Record source := MkSource {
  s_st : Type;
  s_ck : Type;
  s_resume : s_st -> option (sckpt s_ck) -> s_st * res Z;
  s_setssc : s_st -> s_st;
  s_want : s_st -> s_st;
  s_progress : s_st -> Q;
  s_read : forall K : Type, callback s_ck K -> s_st -> K -> nat -> s_st * K * rres;
  s_readbyte : forall K : Type, callback s_ck K -> s_st -> K -> s_st * K * bres
}.
Arguments s_read s {K} cb st k n.
Arguments s_readbyte s {K} cb st k.

(** source.go:112 buf := make([]byte, 4096) *)
Definition discard_buf : Z := 4096.

(** source.go:111-125 DiscardByRead. One unit of fuel per Read. *)
Fixpoint discard_by_read (S : source) {K : Type} (cb : callback (s_ck S) K)
    (fuel : nat) (st : s_st S) (k : K) (delta : Z) : s_st S * K * res unit :=
  if delta <=? 0 then (st, k, Ok tt)
  else match fuel with
  | O => (st, k, Hang)
  | Datatypes.S f =>
      let toRead := Z.min delta discard_buf in
      match s_read S cb st k (Z.to_nat toRead) with
      | (st', k', RRet d None) => discard_by_read S cb f st' k' (delta - zlen d)
      | (st', k', RRet d (Some e)) => (st', k', Err (with_stack e))
      | (st', k', RPanic) => (st', k', Panic)
      | (st', k', RHang) => (st', k', Hang)
      end
  end.

(** io.ReadFull on a Source (used by the external decompressors and tar reader): the bytes read and the error if there are fewer
    than [n]. One unit of fuel per Read. *)
Fixpoint read_full (S : source) {K} (cb : callback (s_ck S) K) (fuel : nat) (src : s_st S) (k : K) (n : nat)
    : s_st S * K * res (bytes * option gerr) :=
  match n with
  | O => (src, k, Ok ([], None))
  | _ =>
      match fuel with
      | O => (src, k, Hang)
      | Datatypes.S f =>
          match s_read S cb src k n with
          | (src', k', RRet d e) =>
              if (n <=? length d)%nat then (src', k', Ok (d, None))
              else match e with
              | Some e => (src', k', Ok (d, Some e))
              | None =>
                  match read_full S cb f src' k' (n - length d) with
                  | (src2, k2, Ok (d2, e2)) => (src2, k2, Ok (d ++ d2, e2))
                  | r => r
                  end
              end
          | (src', k', RPanic) => (src', k', Panic)
          | (src', k', RHang) => (src', k', Hang)
          end
      end
  end.
