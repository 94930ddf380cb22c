(** Props_copy.v -- properties C19-C21: the copier (copy.go).
    [E] is any environment of the copier: any source, destination, save
    consumer and progress callback, any of which may call Stop. [observed E]
    (CopySpec.v) notes all calls the copier makes. *)
From Verif Require Import Base Base_proofs Source Copier CopySpec Copier_proofs.

(** C19. Everything delivered is handed to the destination, in order, each
    byte once, also what comes together with an error; without Stop, nil means
    that the source said io.EOF; after a read error nothing more is read, after
    a write error nothing at all happens, and the errors are returned. *)
Theorem C19_copies_everything X (E : cenv X) fuel x x' evs r :
  sticky E -> copier_do (observed E) fuel (x, []) = ((x', evs), r) ->
  handed evs = delivered evs /\
  (r = Ok tt -> ce_stopped E x' = false -> exists n d s, In (VRead n d (Some EEof), s) evs) /\
  (forall e, r = Err e ->
     (exists pre d m e0 s, evs = pre ++ [(VWrite d m (Some e0), s)] /\ e = with_stack e0) \/
     (exists n d e0 s, In (VRead n d (Some e0), s) evs /\ e0 <> EEof /\ e = with_stack e0)) /\
  (forall pre n d e s post, evs = pre ++ (VRead n d (Some e), s) :: post -> Forall (fun v => ~ is_read v) post) /\
  (forall pre d m e s post, evs = pre ++ (VWrite d m (Some e), s) :: post -> post = []) /\
  (forall n d e s, In (VRead n d e, s) evs -> n = 32 * 1024).
Proof.
  intros HS H.
  destruct (copy_script E _ _ _ _ _ _ _ H) as (evs1 & He & Hs). cbn in He. subst evs1.
  destruct (copy_stop E HS _ _ _ _ _ _ _ H) as (evs1 & He & _ & Hok & _). cbn in He. subst evs1.
  destruct (script_reads _ _ _ Hs) as (R1 & R2 & R3).
  splits; auto.
  - exact (script_bytes _ _ _ Hs).
  - intros Hr Hst. destruct (Hok Hr) as [Hx|Hx]; [congruence|exact Hx].
  - intros e ->. exact (script_end _ _ _ Hs).
Qed.

(** C20. Once some call has stopped the copier, there is no further read; if
    it was a read that stopped it, the chunk just read is still written; and the
    result is nil unless that chunk came with a read error or its write failed.
    A Stop before Do has no effect: what happens does not depend on the flag. *)
Theorem C20_stop X (E : cenv X) fuel x x' evs r :
  sticky E -> copier_do (observed E) fuel (x, []) = ((x', evs), r) ->
  forall pre v post, evs = pre ++ (v, true) :: post ->
    Forall (fun w => ~ is_read w) post /\
    (forall n d e, v = VRead n d e -> exists m e' post', post = (VWrite d m e', true) :: post') /\
    (r = Ok tt \/ (exists n d e s, In (VRead n d (Some e), s) evs) \/ (exists d m e s, In (VWrite d m (Some e), s) evs)).
Proof.
  intros HS H pre v post Heq.
  destruct (copy_stop E HS _ _ _ _ _ _ _ H) as (evs1 & He & _ & _ & Hst). cbn in He. subst evs1.
  destruct (Hst _ _ _ Heq) as (H1 & H2 & H3). splits; auto.
  eapply Forall_impl; [|exact H1]. cbn. tauto.
Qed.

Theorem C20_stop_before_do X (E : cenv X) fuel x :
  (forall b y, ce_setstop E false (ce_setstop E b y) = ce_setstop E false y) ->
  (forall y, ce_stopped E (ce_setstop E false y) = false) ->
  copier_do E fuel (ce_setstop E true x) = copier_do E fuel x /\
  (forall x' r, copier_do (observed E) (S fuel) (ce_setstop E true x, []) = ((x', []), r) -> r <> Ok tt).
Proof.
  intros H1 H2. split.
  - unfold copier_do. rewrite H1. reflexivity.
  - unfold copier_do. cbn [ce_setstop observed fst snd copy_loop ce_stopped]. intros x' r. rewrite H2.
    unfold copy_step. cbn [ce_read observed fst snd].
    destruct (ce_read E (ce_setstop E false (ce_setstop E true x)) copy_buf) as [x1 [d re| |]];
      try (injection 1 as _ <-; discriminate).
    intros H.
    (* a read happened, so the log is not empty *)
    exfalso. cbn [ce_write observed fst snd] in H. destruct (ce_write E x1 d) as [x2 [m [e|]]].
    { injection H as _ H _. discriminate H. }
    assert (Hl : forall f y l pc y' l' r', copy_loop (observed E) f (y, l) pc = ((y', l'), r') -> exists k, l' = l ++ k).
    { intros. destruct (copy_script E _ _ _ _ _ _ _ H0) as (k & -> & _). eauto. }
    destruct (0 + Z.of_nat m >? progress_threshold); destruct re as [re|];
      [destruct re; injection H as _ H _; discriminate H| |destruct re; injection H as _ H _; discriminate H|];
      cbn [ce_emit ce_should observed fst snd] in H; cbv iota beta in H; cbn [fst snd] in H;
      match type of H with context [ce_should E ?y ?n] => destruct (ce_should E y n) as [x4 b] end;
      destruct b; cbn [ce_want observed fst snd] in H; cbv iota beta in H; destruct (Hl _ _ _ _ _ _ _ H) as (k & Hk); discriminate Hk.
Qed.

(** C21. ShouldSave is asked once per chunk copied without error, with its
    length; WantSave follows exactly the positive answers; progress is emitted
    exactly when more than 512 KiB were accepted since the last emission. *)
Theorem C21_save_requests X (E : cenv X) fuel x x' evs r :
  copier_do (observed E) fuel (x, []) = ((x', evs), r) ->
  asked evs = good_chunks evs /\ wants_ok false evs /\ emits_ok (512 * 1024) 0 false evs.
Proof.
  intros H. destruct (copy_script E _ _ _ _ _ _ _ H) as (evs1 & He & Hs). cbn in He. subst evs1.
  exact (script_saves _ _ _ Hs).
Qed.

(** Example: a source with three chunks, the second of which makes the
    consumer stop the copier; destination and consumer without faults. State:
    chunks left, data written, stop flag. *)
Definition ex_cenv (stop_at : nat) : cenv (list bytes * bytes * bool) := {|
  ce_read := fun x _ => match x with
    | ([], w, s) => (x, RRet [] (Some EEof))
    | (c :: cs, w, s) => ((cs, w, s || (length cs =? stop_at)%nat), RRet c None)
    end;
  ce_write := fun x d => (fst (fst x), snd (fst x) ++ d, snd x, (length d, None));
  ce_should := fun x n => (x, n =? 2);
  ce_want := fun x => x; ce_emit := fun x => x;
  ce_stopped := fun x => snd x; ce_setstop := fun b x => (fst x, b) |}.

Example copy_ex_sticky k : sticky (ex_cenv k).
Proof.
  unfold sticky; splits; intros x; destruct x as [[[|c cs] w] s]; cbn; intros; subst; reflexivity.
Qed.

Example copy_ex_all :
  copier_do (observed (ex_cenv 7)) 10 ([s2b "ab"; s2b "cde"; s2b "f"], [], true, []) =
  (([], s2b "abcdef", false,
    [(VRead 32768 (s2b "ab") None, false); (VWrite (s2b "ab") 2 None, false); (VShould 2 true, false); (VWant, false);
     (VRead 32768 (s2b "cde") None, false); (VWrite (s2b "cde") 3 None, false); (VShould 3 false, false);
     (VRead 32768 (s2b "f") None, false); (VWrite (s2b "f") 1 None, false); (VShould 1 false, false);
     (VRead 32768 [] (Some EEof), false); (VWrite [] 0 None, false)]), Ok tt).
Proof. vm_compute. reflexivity. Qed.

Example copy_ex_stop :
  copier_do (observed (ex_cenv 1)) 10 ([s2b "ab"; s2b "cde"; s2b "f"], [], true, []) =
  (([s2b "f"], s2b "abcde", true,
    [(VRead 32768 (s2b "ab") None, false); (VWrite (s2b "ab") 2 None, false); (VShould 2 true, false); (VWant, false);
     (VRead 32768 (s2b "cde") None, true); (VWrite (s2b "cde") 3 None, true); (VShould 3 false, true)]), Ok tt).
Proof. vm_compute. reflexivity. Qed.
