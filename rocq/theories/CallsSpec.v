(** CallsSpec.v -- specification: how a Sink wants to be used (sink.go:68-110). *)
From Verif Require Import Base Source Sink.

(** A call of a method of a Sink or of a writer, with the writer GetWriter returned. *)
Inductive aev (W : Type) :=
| AMkdir (e : entry) | ASymlink (e : entry) (target : bytes) | AGetWriter (e : entry) (got : option W) | APreallocate (e : entry)
| ANuke | AClose | AWrite (w : W) (d : bytes) | ASync (w : W) | ACloseWriter (w : W).
Arguments AMkdir {W}. Arguments ASymlink {W}. Arguments AGetWriter {W}. Arguments APreallocate {W}. Arguments ANuke {W}.
Arguments AClose {W}. Arguments AWrite {W}. Arguments ASync {W}. Arguments ACloseWriter {W}.

(** The sink [SK], noting every call. *)
Definition audited (SK : sink) : sink :=
  let st := (k_st SK * list (aev (k_w SK)))%type in
  let op (A : Type) (s : st) (v : A -> aev (k_w SK)) (r : k_st SK * A) : st * A := let '(t, a) := r in ((t, snd s ++ [v a]), a) in
  {| k_st := st; k_w := k_w SK;
     k_mkdir := fun s e => op _ s (fun _ => AMkdir e) (k_mkdir SK (fst s) e);
     k_symlink := fun s e l => op _ s (fun _ => ASymlink e l) (k_symlink SK (fst s) e l);
     k_getw := fun s e => op _ s (fun r => AGetWriter e (match r with Ok w => Some w | _ => None end)) (k_getw SK (fst s) e);
     k_prealloc := fun s e => op _ s (fun _ => APreallocate e) (k_prealloc SK (fst s) e);
     k_nuke := fun s => op _ s (fun _ => ANuke) (k_nuke SK (fst s));
     k_close := fun s => op _ s (fun _ => AClose) (k_close SK (fst s));
     k_write := fun s w d => op _ s (fun _ => AWrite w d) (k_write SK (fst s) w d);
     k_sync := fun s w => op _ s (fun _ => ASync w) (k_sync SK (fst s) w);
     k_closew := fun s w => op _ s (fun _ => ACloseWriter w) (k_closew SK (fst s) w) |}.

(** [proper pre t cur]: the calls t are as a Sink wants them, cur being the
    writer that may be used afterwards. Space is only preallocated at the very
    beginning, and if [pre]; a writer is only used (and closed once) until the next
    GetWriter; the sink is neither closed nor emptied. *)
Inductive proper {W : Type} (pre : bool) : list (aev W) -> option W -> Prop :=
| PrStart t : Forall (fun v => pre = true /\ exists e, v = APreallocate e) t -> proper pre t None
| PrMkdir t cur e : proper pre t cur -> proper pre (t ++ [AMkdir e]) cur
| PrSymlink t cur e l : proper pre t cur -> proper pre (t ++ [ASymlink e l]) cur
| PrGetWriter t cur e got : proper pre t cur -> proper pre (t ++ [AGetWriter e got]) got
| PrWrite t w d : proper pre t (Some w) -> proper pre (t ++ [AWrite w d]) (Some w)
| PrSync t w : proper pre t (Some w) -> proper pre (t ++ [ASync w]) (Some w)
| PrCloseWriter t w : proper pre t (Some w) -> proper pre (t ++ [ACloseWriter w]) None.
