(** LaterSpec.v -- specification: when a checkpoint of an extractor is not before another one. *)
From Verif Require Import Base Source Sink.

(** How much of the entry it is about is written (Entry.WriteOffset). *)
Definition wrote {CK DT} (c : eckpt CK DT) : Z := match ec_entry c with Some e => en_woff e | None => 0 end.
(** By EntryIndex, then by WriteOffset. *)
Definition not_before {CK DT} (c1 c2 : eckpt CK DT) : Prop :=
  ec_index c1 < ec_index c2 \/ ec_index c1 = ec_index c2 /\ wrote c1 <= wrote c2.
Definition past {CK DT} (c1 c2 : eckpt CK DT) : Prop :=
  ec_index c1 < ec_index c2 \/ ec_index c1 = ec_index c2 /\ wrote c1 < wrote c2.
(** As reported to the user. *)
Definition progress_le (q1 q2 : option Q) : Prop := match q1, q2 with Some a, Some b => (a <= b)%Q | _, _ => False end.
