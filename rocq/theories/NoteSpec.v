(** NoteSpec.v -- specification: observing the calls made to a Sink. *)
From Verif Require Import Base Source Sink.

(** A call of a method of a Sink or of one of its writers. *)
Inductive kev (W : Type) :=
| KMkdir (e : entry) | KSymlink (e : entry) (target : bytes) | KGetWriter (e : entry) | KPreallocate (e : entry)
| KNuke | KClose | KWrite (w : W) (d : bytes) | KSync (w : W) | KCloseWriter (w : W).
Arguments KMkdir {W}. Arguments KSymlink {W}. Arguments KGetWriter {W}. Arguments KPreallocate {W}. Arguments KNuke {W}.
Arguments KClose {W}. Arguments KWrite {W}. Arguments KSync {W}. Arguments KCloseWriter {W}.

(** The sink [SK], noting every call. *)
Definition noted (SK : sink) : sink :=
  let st := (k_st SK * list (kev (k_w SK)))%type in
  let op (A : Type) (s : st) (v : kev (k_w SK)) (r : k_st SK * A) : st * A := let '(t, a) := r in ((t, snd s ++ [v]), a) in
  {| k_st := st; k_w := k_w SK;
     k_mkdir := fun s e => op _ s (KMkdir e) (k_mkdir SK (fst s) e);
     k_symlink := fun s e l => op _ s (KSymlink e l) (k_symlink SK (fst s) e l);
     k_getw := fun s e => op _ s (KGetWriter e) (k_getw SK (fst s) e);
     k_prealloc := fun s e => op _ s (KPreallocate e) (k_prealloc SK (fst s) e);
     k_nuke := fun s => op _ s KNuke (k_nuke SK (fst s));
     k_close := fun s => op _ s KClose (k_close SK (fst s));
     k_write := fun s w d => op _ s (KWrite w d) (k_write SK (fst s) w d);
     k_sync := fun s w => op _ s (KSync w) (k_sync SK (fst s) w);
     k_closew := fun s w => op _ s (KCloseWriter w) (k_closew SK (fst s) w) |}.

(** The entries handed to the sink, in order (WriteOffset aside). *)
Definition handed_one {W} (v : kev W) : list entry :=
  match v with
  | KMkdir e | KSymlink e _ | KGetWriter e => [set_woff e 0]
  | _ => []
  end.
Definition handed_entries {W} (evs : list (kev W)) : list entry := flat_map handed_one evs.

(** Data is only written after the first entry was handed over. *)
Definition only_prealloc {W} (v : kev W) : Prop := match v with KPreallocate _ => True | _ => False end.
Definition only_data {W} (v : kev W) : Prop := match v with KWrite _ _ | KSync _ | KCloseWriter _ => True | _ => False end.
