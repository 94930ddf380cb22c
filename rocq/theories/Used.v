(** Used.v -- model of tarextractor.go's Resume when te.source was used before:
    by an earlier Resume of the same extractor, or of another one that was made
    with the same source. Tar.v has the case of a new source. *)
From Verif Require Import Base Source Seek Decomp Drive Copier Sink Zip Tar Again.

Section Used.
  Context (SK : sink) (F : tfmt) (S : source) (SV : saver (s_ck S) tstate).
  Notation tx := (tx SK S SV).
  Notation tout := (tout SK S SV).

  (** tarextractor.go:104, :142, :177: whether the variable [entry] is set
      when an iteration ends *)
  Definition tar_live (fuel : nat) (src : s_st S) (s : sr) (x : tx) : bool :=
    match ec_entry (t_ck SK S SV x) with
    | Some _ => true
    | None =>
        match sr_next F S fuel src s with
        | (_, _, Ok h) => match tar_entry_of h with Some _ => true | None => false end
        | _ => false
        end
    end.

  (** tarextractor.go:139-230: [tar_loop] of Tar.v; also returns the source, the
      tar reader and [entry != nil] as the loop leaves them *)
  Fixpoint tar_loop2 (fuel lf : nat) (src : s_st S) (s : sr) (i : Z) (x : tx) (live : bool) : s_st S * sr * bool * (tx * res unit) :=
    match t_stoperr SK S SV x with
    | Some _ => (src, s, live, (x, Ok tt))
    | None =>
        match lf with
        | O => (src, s, live, (x, Hang))
        | Datatypes.S lf' =>
            let live' := tar_live fuel src s x in
            match tar_iter SK F S SV fuel src s i x with
            | (src', s', x', Ok _) => tar_loop2 fuel lf' src' s' (i + 1) x' live'
            | (src', s', x', r) => (src', s', live', (x', ws r))
            end
        end
    end.

  (** What a run leaves behind: the source, and the variables of the OnSave
      closure the source still holds (tarextractor.go:101-134): the tar reader, the
      checkpoint and state objects (in [tx]), and whether [entry] is set. The closure is not
      replaced if Resume fails before tarextractor.go:102. *)
  Record tclosure := MkTcl { tl_sr : sr; tl_x : tx; tl_live : bool }.
  Record tleft := MkTl { tl_src : s_st S; tl_cl : option tclosure }.

  (** tarextractor.go:102-134: that closure, called later. [prog]:
      te.source.Progress(). The save consumer's state is the current one. Simplification: the
      objects it refers to are not shared with the checkpoint given to the new call of Resume. *)
  Definition tar_old (prog : Q) : callback (s_ck S) (sv_st SV * tclosure) :=
    fun sc '(v, w) =>
      if tl_live w then
        let '(x', r) := tar_on_save SK S SV prog (tl_sr w) sc (tx_sv SK S SV (tl_x w) v) in
        ((t_sv SK S SV x', MkTcl (tl_sr w) x' true), r)
      else ((v, w), COk).

  (** tarextractor.go:97-247, as [tar_run] of Tar.v *)
  Definition tar_run2 (fuel : nat) (src : s_st S) (s : sr) (ck : teck S) (ts : tstate) (keep : teck S -> option (teck S))
      (st : k_st SK) (v : sv_st SV) : tout * option tleft :=
    let '(src', s', live, (x, r)) := tar_loop2 fuel fuel (s_setssc S src) s (ec_index ck) (MkTx SK S SV st ck ts v false None [] []) false in
    (MkTout SK S SV (t_sink SK S SV x) (t_sv SK S SV x) (keep (t_ck SK S SV x)) (t_log SK S SV x) (t_prog SK S SV x)
      (match r with
       | Ok _ =>
           match t_stoperr SK S SV x with
           | Some EEof | None => Ok (match ts_result (t_state SK S SV x) with Some l => l | None => [] end)
           | Some e => Err e
           end
       | Err e => Err (with_stack e)
       | Panic => Panic
       | Hang => Hang
       end) (Some (t_ck SK S SV x)),
     match r with Panic | Hang => None | _ => Some (MkTl src' (Some (MkTcl s' x live))) end).

  (** tarextractor.go:46-248 Resume, with a source that may have been used before.
      [old]: the save consumer the source holds at first (another run's closure,
      or the user's own), with its state [o]; what the source emits while
      DiscardByRead runs (:67) goes there. What the save consumer is given in
      this way is not part of the [to_log] of this run. What is left is None if
      the source could not be resumed, or if Resume does not return. *)
  Definition tar_resume2 {O} (old : callback (s_ck S) (sv_st SV * O)) (o : O) (src : s_st S) (fuel : nat)
      (c : option (teck S)) (st : k_st SK) (v : sv_st SV) : tout * option tleft :=
    match tar_point S c with
    | Some (ck, ts, s) =>
        let fail v r := MkTout SK S SV st v (Some ck) [] [] r (Some ck) in
        match s_resume S src (ec_src ck) with
        | (src1, Ok offset) =>
            let '(src2, (v2, _), r2) :=
              if offset <? sr_off s then discard_by_read S old fuel src1 (v, o) (sr_off s - offset)
              else (src1, (v, o), Ok tt) in
            match r2 with
            | Ok _ => tar_run2 fuel src2 s ck ts Some st v2
            | Err e => (fail v2 (Err (with_stack e)), Some (MkTl src2 None))
            | Panic => (fail v2 Panic, None)
            | Hang => (fail v2 Hang, None)
            end
        | (_, Err e) => (fail v (Err (with_stack e)), None)
        | (_, Panic) => (fail v Panic, None)
        | (_, Hang) => (fail v Hang, None)
        end
    | None =>
        match s_resume S src None with
        | (src1, Ok _) => tar_run2 fuel src1 (MkSr 0 0 0) (MkEck None 0 None (Some 0%Q) None) (MkTs (Some []) None) (fun _ => c) st v
        | (_, Err e) => (MkTout SK S SV st v c [] [] (Err (with_stack e)) c, None)
        | (_, Panic) => (MkTout SK S SV st v c [] [] Panic c, None)
        | (_, Hang) => (MkTout SK S SV st v c [] [] Hang c, None)
        end
    end.

  Lemma tar_loop2_loop fuel : forall lf src s i x live, snd (tar_loop2 fuel lf src s i x live) = tar_loop SK F S SV fuel lf src s i x.
  Proof.
    induction lf as [|lf IH]; intros; cbn [tar_loop2 tar_loop]; destruct (t_stoperr SK S SV x); try reflexivity.
    destruct (tar_iter SK F S SV fuel src s i x) as [[[? ?] ?] [?| | |]]; try reflexivity. apply IH.
  Qed.
  (** the outcome is that of Tar.v *)
  Lemma tar_run2_run fuel src s ck ts keep st v :
    fst (tar_run2 fuel src s ck ts keep st v) = tar_run SK F S SV fuel src s ck ts keep st v.
  Proof.
    unfold tar_run2, tar_run. rewrite <- (tar_loop2_loop fuel fuel _ _ _ _ false).
    destruct (tar_loop2 _ _ _ _ _ _ _) as [[[? ?] ?] [? ?]]. reflexivity.
  Qed.
End Used.

(** [tar_again] of Again.v (checker/extractortester.go:72-105) with one extractor,
    and hence one source, throughout. [cl]: the closure that the source holds,
    None for a new source. *)
Section Again2.
  Context (SK : sink) (F : tfmt) (S : source) (SV : saver (s_ck S) tstate).
  Definition tar_resume_left (src : s_st S) (cl : option (tclosure SK S SV)) (fuel : nat) (c : option (teck S)) (st : k_st SK) (v : sv_st SV)
      : tout SK S SV * option (tleft SK S SV) :=
    match cl with
    | None => tar_resume2 SK F S SV (fun _ u => (u, COk)) tt src fuel c st v
    | Some w => tar_resume2 SK F S SV (tar_old SK S SV (s_progress S src)) w src fuel c st v
    end.
  Fixpoint tar_again_same (fuel left k : nat) (src : s_st S) (cl : option (tclosure SK S SV)) (c : option (teck S)) (s : k_st SK) (v : sv_st SV)
      : option (nat * tout SK S SV) :=
    let '(out, l) := tar_resume_left src cl fuel c s v in
    match to_res _ _ _ out, l with
    | Err EStop, Some (MkTl _ _ _ src' cl') =>
        match left with
        | O => None
        | Datatypes.S left' =>
            tar_again_same fuel left' (Datatypes.S k) src' (match cl' with Some w => Some w | None => cl end)
              (kept c (to_log _ _ _ out)) (to_sink _ _ _ out) (to_sv _ _ _ out)
        end
    | _, _ => Some (k, out)
    end.
End Again2.
