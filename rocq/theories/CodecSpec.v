(** CodecSpec.v -- specification: what a decompressor makes of a complete
    input. *)
From Verif Require Import Base Decomp.

(** Run the decompressor for at most [n] steps on input [inp], which ends
    with the error [itm] of the underlying stream. Result: everything it
    outputs and the error it ends with (io.EOF only for a clean finish). *)
Fixpoint crun (C : codec) (n : nat) (d : cd_st C) (inp : bytes) (itm : gerr) : option (bytes * gerr) :=
  match n with
  | O => None
  | S n' =>
      match cd_step C d with
      | Pull k =>
          match inp with
          | b :: inp' => crun C n' (k b) inp' itm
          | [] => Some ([], match itm with EEof => EUnexpectedEof | e => e end)
          end
      | PullN m k =>
          if (m <=? length inp)%nat then crun C n' (k (firstn m inp)) (skipn m inp) itm
          else Some ([], match itm with EEof => EUnexpectedEof | e => e end)
      | Emit b bs d' =>
          match crun C n' d' inp itm with
          | Some (o, e) => Some ((b :: bs) ++ o, e)
          | None => None
          end
      | Boundary d' => crun C n' d' inp itm
      | Finish => Some ([], EEof)
      | Corrupt => Some ([], ECorrupt)
      end
  end.

(** Every place where the decompressor can be saved lies strictly before the
    end of its input (true of every format with something after its blocks). *)
Fixpoint saves_before_end (C : codec) (n : nat) (d : cd_st C) (inp : bytes) : Prop :=
  match n with
  | O => True
  | S n' =>
      match cd_step C d with
      | Pull k => match inp with b :: inp' => saves_before_end C n' (k b) inp' | [] => True end
      | PullN m k => if (m <=? length inp)%nat then saves_before_end C n' (k (firstn m inp)) (skipn m inp) else True
      | Emit b bs d' => saves_before_end C n' d' inp
      | Boundary d' => inp <> [] /\ saves_before_end C n' d' inp
      | Finish => True
      | Corrupt => True
      end
  end.

(** No two block boundaries without output in between. *)
Fixpoint no_empty_block (C : codec) (n : nat) (d : cd_st C) (inp : bytes) (fresh : bool) : Prop :=
  match n with
  | O => True
  | S n' =>
      match cd_step C d with
      | Pull k => match inp with b :: inp' => no_empty_block C n' (k b) inp' fresh | [] => True end
      | PullN m k => if (m <=? length inp)%nat then no_empty_block C n' (k (firstn m inp)) (skipn m inp) fresh else True
      | Emit b bs d' => no_empty_block C n' d' inp false
      | Boundary d' => fresh = false /\ no_empty_block C n' d' inp true
      | Finish => True
      | Corrupt => True
      end
  end.

(** A decompressor that says it is ready to be saved can be saved. *)
Definition saves_ok (C : codec) : Prop :=
  forall d d', cd_step C d = Boundary d' -> cd_savable C d' = true.

(** The decompressor finishes only after having read all of its input. *)
Fixpoint needs_all (C : codec) (n : nat) (d : cd_st C) (inp : bytes) : Prop :=
  match n with
  | O => True
  | S n' =>
      match cd_step C d with
      | Pull k => match inp with b :: inp' => needs_all C n' (k b) inp' | [] => True end
      | PullN m k => if (m <=? length inp)%nat then needs_all C n' (k (firstn m inp)) (skipn m inp) else True
      | Emit b bs d' => needs_all C n' d' inp
      | Boundary d' => needs_all C n' d' inp
      | Finish => inp = []
      | Corrupt => True
      end
  end.

(** The first thing the decompressor does is to read some input. *)
Definition starts_by_reading (C : codec) : Prop :=
  match cd_step C (cd_init C) with
  | Pull _ => True
  | PullN (S _) _ => True
  | _ => False
  end.
