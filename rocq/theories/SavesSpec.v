(** SavesSpec.v -- specification: how a save consumer is used (extractor.go:107-115). *)
From Verif Require Import Base Source Seek Decomp Drive Sink Zip CallsSpec.

(** A call of a method of a SaveConsumer: ShouldSave(copiedBytes) with its answer, Save. *)
Inductive sev := SShould (copied : Z) (yes : bool) | SSave.

(** The save consumer [SV], noting every call. *)
Definition recorded {CK DT} (SV : saver CK DT) : saver CK DT :=
  MkSaver (sv_st SV * list sev)%type
    (fun s n => let '(v, b) := sv_should SV (fst s) n in ((v, snd s ++ [SShould n b]), b))
    (fun s c => let '(v, r) := sv_save SV (fst s) c in ((v, snd s ++ [SSave]), r)).

Definition saves (t : list sev) : nat := length (filter (fun v => match v with SSave => true | _ => false end) t).
Definition yeses (t : list sev) : nat := length (filter (fun v => match v with SShould _ true => true | _ => false end) t).
(** The sum of the arguments of ShouldSave. *)
Definition reported (t : list sev) : Z := fold_right (fun v a => match v with SShould n _ => n + a | SSave => a end) 0 t.
(** The number of bytes handed to the writers of a sink. *)
Definition written {W} (t : list (aev W)) : Z := fold_right (fun v a => match v with AWrite _ d => zlen d + a | _ => a end) 0 t.

(** At any time Save was called at most as often as ShouldSave said yes. *)
Definition asked_for (t : list sev) : Prop := forall p q, t = p ++ q -> (saves p <= yeses p)%nat.

(** The reader never returns io.EOF together with data. *)
Definition plain_reader (rs : rstate) : Prop := forall n, ~ In (RsChunk n true) (rs_orc rs).
(** Nor does the source over it: the outermost layer decides. *)
Definition plain_eof (k : stk) (rs : rstate) : Prop :=
  match k with KSeek => plain_reader rs | KDec C _ _ _ => cd_eager C = false end.
