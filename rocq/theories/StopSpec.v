(** StopSpec.v -- specification: observing what a save consumer answers. *)
From Verif Require Import Base Source Sink Tar Zip.

(** The save consumer [SV], noting every checkpoint it is given and its answer:
    [inl true]: stop, [inl false]: go on, [inr e]: an error. *)
Definition watched {CK DT} (SV : saver CK DT) : saver CK DT :=
  MkSaver (sv_st SV * list (eckpt CK DT * (bool + gerr)))%type
    (fun s n => let '(v, b) := sv_should SV (fst s) n in ((v, snd s), b))
    (fun s c => let '(v, r) := sv_save SV (fst s) c in ((v, snd s ++ [(c, r)]), r)).

(** The sink, the consumer, the header parser and the archive reader never return savior.ErrStop as
    an error of their own. *)
Definition sink_no_stop (SK : sink) : Prop :=
  (forall s e, snd (k_mkdir SK s e) <> Some EStop) /\ (forall s e t, snd (k_symlink SK s e t) <> Some EStop) /\
  (forall s e, snd (k_getw SK s e) <> Err EStop) /\ (forall s e, snd (k_prealloc SK s e) <> Some EStop) /\
  (forall s w d, snd (snd (k_write SK s w d)) <> Some EStop) /\ (forall s w, snd (k_sync SK s w) <> Some EStop).
Definition saver_no_stop {CK DT} (SV : saver CK DT) : Prop := forall v c, snd (sv_save SV v c) <> inr EStop.
Definition fmt_no_stop (F : tfmt) : Prop := forall st, tf_step F st <> TsFail EStop.
Definition zio_no_stop (io : zio) : Prop :=
  zi_dataoff io <> Err EStop /\ zi_open io <> Err EStop /\ forall chunks, zi_open io <> Ok (chunks, Some EStop).
