(** UsedSpec.v -- specification: what can happen to a tar extraction over time if the
    source is used for several calls of Resume. *)
From Verif Require Import Base Source Seek Decomp CodecSpec Drive SpoilSpec Copier Sink SinkSpec Zip ZipSpec Tar TarSpec Used.

Section Life.
  Context (pol : bool) (data : bytes) (start size : Z) (k : stk) (F : tfmt).
  Context {SK : sink} (L : sink_laws SK) (st0 : k_st SK).
  Notation S := (stk_source k).

  (** A save consumer of a source: it may do anything but panic. *)
  Definition calm {CK K} (cb : callback CK K) : Prop := forall c u, snd (cb c u) <> CPanic.

  (** What is left of the source of a run: nothing ([killed]: the process is
      gone; or the source could not be resumed), or the source as the run left it. *)
  Definition left_over {SK' SV} (killed : bool) (l : option (tleft SK' S SV)) : option (s_st S) :=
    if killed then None else option_map (tl_src SK' S SV) l.
  Definition is_some {A} (o : option A) : bool := match o with Some _ => true | None => false end.

  (** [ulife st cks src]: the sink can be in state [st] while the user holds the
      checkpoints [cks], latest first, and, if [src] is [Some (s, g)], a source in state [s]
      over a reader that never fails if [g]. As [tlife] of TarSpec.v; but here
      the source of one run is used for the next, unless the user makes a new one
      (UlSource). [old] is the save consumer that the source holds before a run, whatever it is.
      A checkpoint may lose its source checkpoint (UlLost): then Resume has to discard data. *)
  Inductive ulife : k_st SK -> list (teck S) -> option (s_st S * bool) -> Prop :=
  | UlStart : ulife st0 [] None
  | UlReopen st st' cks src :
      ulife st cks src -> kl_inv L st' -> (forall l, kl_view L st' l = kl_view L st l) -> ulife st' cks src
  | UlSource st cks src rs g :
      ulife st cks src -> rs_ok pol data rs -> (g = true -> rs_good rs) -> ulife st cks (Some (tsrc start size k rs, g))
  | UlFresh st cks src g c SV O (old : callback (s_ck S) (sv_st SV * O)) o fuel v n out l :
      ulife st cks (Some (src, g)) -> no_point k c -> calm old ->
      (out, l) = tar_resume2 (crashing SK) F S SV old o src fuel c (st, n) v ->
      ulife (fst (to_sink _ _ _ out)) (rev (map fst (to_log _ _ _ out)))
        (option_map (fun s => (s, g)) (left_over (is_some n) l))
  | UlResume st later c earlier src g SV O (old : callback (s_ck S) (sv_st SV * O)) o fuel v n out l :
      ulife st (later ++ c :: earlier) (Some (src, g)) -> calm old ->
      (out, l) = tar_resume2 (crashing SK) F S SV old o src fuel (Some c) (st, n) v ->
      ulife (fst (to_sink _ _ _ out)) (rev (map fst (to_log _ _ _ out)) ++ c :: earlier)
        (option_map (fun s => (s, g)) (left_over (is_some n) l))
  | UlLost st later c earlier src :
      ulife st (later ++ c :: earlier) src ->
      ulife st (later ++ MkEck None (ec_index c) (ec_entry c) (ec_prog c) (ec_data c) :: c :: earlier) src.

  (** A call of Resume at any point of such a life. [g]: the reader never fails;
      [q]: the save consumer that the source held before never fails. *)
  Inductive urun (SV : saver (s_ck S) tstate) : bool -> Prop -> option (teck S) -> nat -> k_st SK -> tout SK S SV -> Prop :=
  | UrFresh st cks src g c O (old : callback (s_ck S) (sv_st SV * O)) o fuel v out l :
      ulife st cks (Some (src, g)) -> no_point k c -> calm old ->
      (out, l) = tar_resume2 SK F S SV old o src fuel c st v ->
      urun SV g (forall sc u, snd (old sc u) = COk) c fuel st out
  | UrResume st later c earlier src g O (old : callback (s_ck S) (sv_st SV * O)) o fuel v out l :
      ulife st (later ++ c :: earlier) (Some (src, g)) -> calm old ->
      (out, l) = tar_resume2 SK F S SV old o src fuel (Some c) st v ->
      urun SV g (forall sc u, snd (old sc u) = COk) (Some c) fuel st out.
End Life.
