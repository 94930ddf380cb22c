(** Copier.v -- model of copy.go. *)
From Verif Require Import Base Source.

(** What Copier.Do works with: params.Src.Read, params.Dst.Write (returns the
    number of bytes accepted), SaveConsumer.ShouldSave, params.Savable.WantSave,
    params.EmitProgress (identity if nil), and the field c.stop, all acting on
    one state [X] (the rest of the program), since each of them may run
    arbitrary code, including Copier.Stop. copy.go:19-38 *)
Record cenv (X : Type) := MkCenv {
  ce_read : X -> nat -> X * rres;
  ce_write : X -> bytes -> X * (nat * option gerr);
  ce_should : X -> Z -> X * bool;
  ce_want : X -> X;
  ce_emit : X -> X;
  ce_stopped : X -> bool;
  ce_setstop : bool -> X -> X
}.
Arguments MkCenv {X}.
Arguments ce_read {X}. Arguments ce_write {X}. Arguments ce_should {X}. Arguments ce_want {X}.
Arguments ce_emit {X}. Arguments ce_stopped {X}. Arguments ce_setstop {X}.

(** copy.go:43 make([]byte, 32*1024) *)
Definition copy_buf : nat := Z.to_nat (32 * 1024).
#[global] Opaque copy_buf.
(** copy.go:29 *)
Definition progress_threshold : Z := 512 * 1024.

(** copy.go:57-82: one iteration of the loop; [inl pc]: go on with progress
    counter pc, [inr r]: return r. *)
Definition copy_step {X} (E : cenv X) (x : X) (pc : Z) : X * (Z + res unit) :=
  match ce_read E x copy_buf with
  | (x1, RPanic) => (x1, inr Panic)
  | (x1, RHang) => (x1, inr Hang)
  | (x1, RRet d re) =>
      match ce_write E x1 d with
      | (x2, (_, Some e)) => (x2, inr (Err (with_stack e)))
      | (x2, (m, None)) =>
          let pc1 := pc + Z.of_nat m in
          let emit := pc1 >? progress_threshold in
          let x3 := if emit then ce_emit E x2 else x2 in
          let pc2 := if emit then 0 else pc1 in
          match re with
          | Some EEof => (x3, inr (Ok tt))
          | Some e => (x3, inr (Err (with_stack e)))
          | None =>
              let '(x4, b) := ce_should E x3 (zlen d) in
              (if b then ce_want E x4 else x4, inl pc2)
          end
      end
  end.

(** copy.go:56-85 the loop, one unit of fuel per iteration *)
Fixpoint copy_loop {X} (E : cenv X) (fuel : nat) (x : X) (pc : Z) : X * res unit :=
  if ce_stopped E x then (x, Ok tt)
  else match fuel with
  | O => (x, Hang)
  | S f =>
      match copy_step E x pc with
      | (x', inl pc') => copy_loop E f x' pc'
      | (x', inr r) => (x', r)
      end
  end.

(** copy.go:47-86 Do, for non-nil params (nil params: [copier_do_nil]) *)
Definition copier_do {X} (E : cenv X) (fuel : nat) (x : X) : X * res unit :=
  copy_loop E fuel (ce_setstop E false x) 0.

(** copy.go:48-50 *)
Definition copier_do_nil {X} (x : X) : X * res unit := (x, Err (EOther 10)).
