(** Props_compress.v -- property C85: what the test compressors produce, the sources give back. *)
From Verif Require Import Base Base_proofs Source Contract Seek Decomp CodecSpec Drive Stack_proofs ExCodec Reenter Compress
  Props_source Props_source2 Props_source3 Props_reenter.
Open Scope Z_scope.

(** ** Specification: a compressor and a decompressor that belong together *)

(** A writer is created, written to any number of times and closed, nothing
    of which fails: [input] was written in all, [out] has arrived in the buffer. *)
Inductive wrote (W : wcomp) : wc_st W -> bytes -> bytes -> Prop :=
| WClose w out : wc_close W w = (out, None) -> wrote W w [] out
| WWrite w p w1 b input out : wc_write W w p = (w1, b, None) -> wrote W w1 input out -> wrote W w (p ++ input) (b ++ out).

(** The decompressor [C] decodes [out] to [input] and then ends cleanly. *)
Definition decodes (C : codec) (out input : bytes) : Prop := exists N, crun C N (cd_init C) out EEof = Some (input, EEof).

Definition inverse (W : wcomp) (level : Z) (C : codec) : Prop :=
  forall w b, wc_new W level = inl (w, b) -> forall input out, wrote W w input out -> decodes C (b ++ out) input.
Definition inverse_b (B : bcomp) (level : Z) (C : codec) : Prop :=
  forall w b, bc_new B level = (w, b) -> forall input out, wrote (bc_w B) w input out -> decodes C (b ++ out) input.
Definition inverse_cmd (cmd : command) (C : codec) : Prop :=
  forall input out, cmd input = (out, None) -> decodes C out input.

(** What C12 to C16 assume of a decompressor, for every complete stream. *)
Definition good_codec (C : codec) : Prop :=
  saves_ok C /\ starts_by_reading C /\
  forall N inp D, crun C N (cd_init C) inp EEof = Some (D, EEof) -> saves_before_end C N (cd_init C) inp.

(** One of the four functions of checker/compressors.go, a decompressor to go with it, and
    the source package that uses that decompressor. *)
Inductive tcomp :=
| TcGzip (W : wcomp) | TcFlate (W : wcomp) | TcBzip2 (cmd : command) | TcBrotli (B : bcomp) (level : Z).
Definition tc_run (f : tcomp) : bytes -> res bytes :=
  match f with
  | TcGzip W => gzip_compress W | TcFlate W => flate_compress W | TcBzip2 cmd => bzip2_compress cmd
  | TcBrotli B level => fun input => brotli_compress B input level
  end.
Definition tc_inverse (f : tcomp) : codec -> Prop :=
  match f with
  | TcGzip W => inverse W 9 | TcFlate W => inverse W 9 | TcBzip2 cmd => inverse_cmd cmd | TcBrotli B level => inverse_b B level
  end.
Definition tc_cfg (f : tcomp) : dcfg :=
  match f with TcGzip _ => gzip_cfg | TcFlate _ => flate_cfg | TcBzip2 _ => bzip2_cfg | TcBrotli _ _ => brotli_cfg end.

(** ** Errors *)

(** The calls that a function makes, in order, and what they say. *)
Inductive failed_with (W : wcomp) (w : wc_st W) (input : bytes) : gerr -> Prop :=
| FwWrite w1 b e : wc_write W w input = (w1, b, Some e) -> failed_with W w input e
| FwClose w1 b b2 e : wc_write W w input = (w1, b, None) -> wc_close W w1 = (b2, Some e) -> failed_with W w input e.
Definition tc_fails (f : tcomp) (input : bytes) (e : gerr) : Prop :=
  match f with
  | TcGzip W | TcFlate W => wc_new W 9 = inr e \/ exists w b, wc_new W 9 = inl (w, b) /\ failed_with W w input e
  | TcBzip2 cmd => snd (cmd input) = Some e
  | TcBrotli B level => failed_with (bc_w B) (fst (bc_new B level)) input e
  end.

Lemma write_close_cases W w buf input :
  match write_close W w buf input with
  | Ok out => exists o, wrote W w input o /\ out = buf ++ o
  | Err e => exists e0, failed_with W w input e0 /\ e = with_stack e0
  | _ => False
  end.
Proof.
  unfold write_close. destruct (wc_write W w input) as [[w1 b1] [e1|]] eqn:E1.
  { exists e1. split; [exact (FwWrite _ _ _ _ _ _ E1)|reflexivity]. }
  destruct (wc_close W w1) as [b2 [e2|]] eqn:E2.
  { exists e2. split; [exact (FwClose _ _ _ _ _ _ _ E1 E2)|reflexivity]. }
  exists (b1 ++ b2). split; [|reflexivity]. rewrite <- (app_nil_r input) at 1.
  exact (WWrite _ _ _ _ _ _ _ E1 (WClose _ _ _ E2)).
Qed.

(** C85: the functions return an error -- the first one, with a stack -- exactly if one of the
    calls failed, and never panic. *)
Theorem C85_compress_errors f input :
  match tc_run f input with
  | Ok _ => forall e, ~ tc_fails f input e
  | Err e => exists e0, tc_fails f input e0 /\ e = with_stack e0
  | _ => False
  end.
Proof.
  assert (Hw : forall W w buf, match write_close W w buf input with Ok _ => forall e, ~ failed_with W w input e | _ => True end).
  { intros W w buf. unfold write_close. destruct (wc_write W w input) as [[w1 b1] [e1|]] eqn:E1; [exact Logic.I|].
    destruct (wc_close W w1) as [b2 [e2|]] eqn:E2; [exact Logic.I|]. intros e [w1' b e' H|w1' b b2' e' H H2]; rewrite E1 in H; [discriminate|].
    injection H as <- <-. rewrite E2 in H2. discriminate. }
  assert (Hz : forall W, match writer_compress W 9 input with
    | Ok _ => forall e, ~ (wc_new W 9 = inr e \/ exists w b, wc_new W 9 = inl (w, b) /\ failed_with W w input e)
    | Err e => exists e0, (wc_new W 9 = inr e0 \/ exists w b, wc_new W 9 = inl (w, b) /\ failed_with W w input e0) /\ e = with_stack e0
    | _ => False end).
  { intros W. unfold writer_compress. destruct (wc_new W 9) as [[w b]|e] eqn:E; [|exists e; auto].
    pose proof (write_close_cases W w b input) as H. specialize (Hw W w b). destruct (write_close W w b input) as [o|e| |]; try contradiction.
    - intros e [H1|(w' & b' & H1 & H2)]; [discriminate|]. injection H1 as <- <-. exact (Hw e H2).
    - destruct H as (e0 & H & ->). exists e0. split; [|reflexivity]. right. eauto. }
  destruct f as [W|W|cmd|B level]; cbn [tc_run tc_fails].
  - apply Hz.
  - apply Hz.
  - unfold bzip2_compress. destruct (cmd input) as [out [e|]]; cbn; [exists e; auto|]. discriminate.
  - unfold brotli_compress. destruct (bc_new B level) as [w b]. cbn [fst].
    pose proof (write_close_cases (bc_w B) w b input) as H. specialize (Hw (bc_w B) w b). destruct (write_close (bc_w B) w b input); auto.
Qed.

Lemma tc_decodes f C input out : tc_inverse f C -> tc_run f input = Ok out -> decodes C out input.
Proof.
  assert (Hz : forall W, inverse W 9 C -> writer_compress W 9 input = Ok out -> decodes C out input).
  { intros W Hi. unfold writer_compress. destruct (wc_new W 9) as [[w b]|] eqn:E; [|discriminate]. intros H.
    pose proof (write_close_cases W w b input) as Hc. rewrite H in Hc. destruct Hc as (o & Hw & ->). exact (Hi w b E _ _ Hw). }
  destruct f as [W|W|cmd|B level]; cbn [tc_run tc_inverse]; intros Hi H.
  - exact (Hz W Hi H).
  - exact (Hz W Hi H).
  - unfold bzip2_compress in H. destruct (cmd input) as [o [e|]] eqn:E; [discriminate|]. injection H as ->. exact (Hi _ _ E).
  - unfold brotli_compress in H. destruct (bc_new B level) as [w b] eqn:E.
    pose proof (write_close_cases (bc_w B) w b input) as Hc. rewrite H in Hc. destruct Hc as (o & Hw & ->). exact (Hi w b E _ _ Hw).
Qed.

(** ** The round trip *)
Section RoundTrip.
  Context (f : tcomp) (C : codec) (input out : bytes).
  Context (Hinv : tc_inverse f C) (HC : good_codec C) (Hrun : tc_run f input = Ok out) (Hlen : zlen out < two63).
  Notation k fuel := (KDec C (tc_cfg f) fuel KSeek).

  Lemma tc_den : exists B, forall fuel, (B < fuel)%nat -> forall pol, exists b, stk_den pol out 0 (zlen out) (k fuel) input EEof b false (negb (cd_eager C)) (cd_eager_save C).
  Proof.
    destruct (tc_decodes f C input out Hinv Hrun) as (N & HN). destruct HC as (C1 & C2 & C3).
    exists (N + length out)%nat. intros fuel Hf pol. exists (N + length input)%nat.
    pose proof (DenSeek pol out 0 (zlen out) ltac:(lia) ltac:(unfold zlen; lia) ltac:(lia)) as Hd.
    replace (slice out (Z.to_nat 0) (Z.to_nat (zlen out))) with out in Hd by (unfold slice, zlen; rewrite Nat2Z.id; cbn; now rewrite firstn_all).
    refine (DenDec pol out 0 (zlen out) C (tc_cfg f) fuel KSeek out EEof (length out) pol false N input EEof false Hd HN _ _ _ C1 C2 _ _).
    - discriminate.
    - lia.
    - lia.
    - right. exact (C3 N out input HN).
    - discriminate.
  Qed.

  (** C85. Whatever is done with a source over what the function returned -- any number of
      sources, reads of any size, save requests, resumes from any of their
      checkpoints -- it gives back the bytes of the input, and nothing else, and says io.EOF only at their end. *)
  Theorem C85_round_trip : exists B, forall fuel, (B < fuel)%nat ->
    forall pol rs st0 bb c st z ops st' evs bad,
      life pol out 0 (zlen out) (k fuel) false rs st0 bb ->
      (forall x, c = Some x -> emitted pol out 0 (zlen out) (k fuel) false x) ->
      s_resume (stk_source (k fuel)) st0 c = (st, Ok z) ->
      Forall (op_ok false) ops -> trace (stk_source (k fuel)) st ops = (st', evs, bad) ->
      bad = false /\ tdata evs = slice input (Z.to_nat z) (length (tdata evs)) /\ z + zlen (tdata evs) <= zlen input /\
      (forall pre ev post, evs = pre ++ ev :: post -> te_err ev = Some EEof -> z + zlen (tdata pre) + zlen (te_data ev) = zlen input).
  Proof.
    destruct tc_den as (B & HB). exists B. intros fuel Hf pol rs st0 bb c st z ops st' evs bad Hl Hc Hr Hops Ht.
    destruct (HB fuel Hf pol) as (b & Hden).
    edestruct C12_saving_invisible as (H1 & H2 & H3 & _ & H5); [exact Hden|exact Hl|exact Hc|exact Hr|exact Hops|exact Ht|].
    splits; auto. intros pre ev post He Hev. exact (proj2 (H5 pre ev post He Hev)).
  Qed.

  (** ... all of them, if the file can be read and one keeps reading. *)
  Theorem C85_round_trip_complete : exists B, forall fuel, (B < fuel)%nat ->
    forall pol rs st0 bb c st r,
      life pol out 0 (zlen out) (k fuel) false rs st0 bb ->
      (forall x, c = Some x -> emitted pol out 0 (zlen out) (k fuel) false x) ->
      rs_good rs -> input <> [] -> s_resume (stk_source (k fuel)) st0 c = (st, r) ->
      exists z, r = Ok z /\ exists n0, forall n sz st' evs bad, (n0 <= n)%nat -> (0 < sz)%nat ->
        trace (stk_source (k fuel)) st (repeat (CRead sz) n) = (st', evs, bad) ->
        tdata evs = skipn (Z.to_nat z) input /\ exists ev, In ev evs /\ te_err ev = Some EEof.
  Proof.
    destruct tc_den as (B & HB). exists B. intros fuel Hf pol rs st0 bb c st r Hl Hc Hg Hne Hr.
    destruct (HB fuel Hf pol) as (b & Hden).
    eapply C12_reaches_the_end; [exact Hden|exact Hl|exact Hc|exact Hg|exact Hne|exact Hr].
  Qed.

  (** ... and RunSourceTest, as the tests of the source packages call it (compress the reference, test a
      source over the result), passes or has too few or too many checkpoints to
      say anything -- too few always up to 256 KiB, too many only beyond 32 MiB. *)
  Theorem C85_source_test rs : cd_eager_save C = false -> rs_of out rs -> rs_good rs ->
    exists B, forall fuel, (B < fuel)%nat -> exists B2, forall fuel2, (B2 <= fuel2)%nat ->
      let v := source_test (k fuel) fuel2 (stk_new (k fuel) rs 0 (zlen out)) input in
      (v = TPass \/ v = TNoCheckpoint \/ v = TTooMany /\ 33816705 <= zlen input) /\ (zlen input <= 262144 -> v = TNoCheckpoint).
  Proof.
    intros Hes Hrs Hg. destruct tc_den as (B & HB). exists B. intros fuel Hf. destruct (HB fuel Hf false) as (b & Hden). rewrite Hes in Hden.
    destruct (C68_source_test false out 0 (zlen out) (k fuel) input b false _ rs [] Hden Hrs ltac:(discriminate) Hg) as (B2 & H2).
    exists B2. intros fuel2 Hf2. specialize (H2 fuel2 Hf2). rewrite app_nil_r in H2. exact H2.
  Qed.
End RoundTrip.

(** ** Not vacuous: a compressor for the decompressor of ExCodec.v *)

(** A stored block 'S' x y for every two bytes; a byte left over waits for the next Write, and
    makes Close fail. The header comes with NewWriter. *)
Fixpoint exw_write (w : option byte) (p : bytes) : option byte * bytes :=
  match p with
  | [] => (w, [])
  | x :: p' =>
      match w with
      | None => exw_write (Some x) p'
      | Some a => let '(w', b) := exw_write None p' in (w', "S"%char :: a :: x :: b)
      end
  end.
Definition exw : wcomp := MkWcomp (option byte)
  (fun level => if (0 <=? level) && (level <=? 9) then inl (None, s2b "H") else inr (EOther 1))
  (fun w p => let '(w', b) := exw_write w p in (w', b, None))
  (fun w => match w with None => (s2b "E", None) | Some _ => ([], Some (EOther 2)) end).

Definition owed (w : option byte) : bytes := match w with None => [] | Some a => [a] end.
Notation exc := (ex_codec false false).
Lemma exw_blocks p : forall w w' b rest D, exw_write w p = (w', b) ->
  (exists N, crun exc N X1 rest EEof = Some (owed w' ++ D, EEof)) ->
  exists N, crun exc N X1 (b ++ rest) EEof = Some (owed w ++ p ++ D, EEof).
Proof.
  induction p as [|x p IH]; intros w w' b rest D; cbn [exw_write].
  - intros [= <- <-]. auto.
  - destruct w as [a|].
    + destruct (exw_write None p) as [w2 b2] eqn:E. intros [= <- <-] H. destruct (IH _ _ _ _ _ E H) as (N & HN).
      exists (4 + N)%nat. cbn [owed app] in HN |- *. cbn. rewrite HN. reflexivity.
    + intros E H. exact (IH _ _ _ _ _ E H).
Qed.
Lemma exw_inverse : inverse exw 9 exc.
Proof.
  intros w b H input out Hw. cbn in H. injection H as <- <-.
  assert (Hx : exists N, crun exc N X1 out EEof = Some (owed None ++ input, EEof)).
  { change (wc_st exw) with (option byte) in Hw. revert Hw. generalize (@None byte). intros w Hw.
    induction Hw as [w o H|w p w1 b input out H Hw IH].
    - cbn in H. destruct w; [discriminate|]. injection H as <-. exists 2%nat. reflexivity.
    - cbn in H. destruct (exw_write w p) as [w2 b2] eqn:E. injection H as <- <-. exact (exw_blocks _ _ _ _ _ _ E IH). }
  destruct Hx as (N & HN). exists (S N). cbn. exact HN.
Qed.
Lemma exw_good : good_codec exc.
Proof.
  split; [apply ex_saves_ok|]. split; [exact Logic.I|]. intros N. change (cd_init exc) with X0. generalize X0.
  induction N as [|N IH]; intros d inp D; [discriminate|]. cbn [crun saves_before_end]. change (cd_step exc d) with (ex_step d).
  destruct d; cbn [ex_step]; try (intros; exact Logic.I).
  all: try (destruct inp as [|y inp]; [discriminate|]; apply IH).
  - destruct (crun exc N X4 inp EEof) as [[o e]|] eqn:E; [|discriminate]. intros [= <- ->]. exact (IH _ _ _ E).
  - intros H. split; [|exact (IH _ _ _ H)]. intros ->. destruct N; [discriminate|]. discriminate.
  - destruct (crun exc N XF inp EEof) as [[o e]|] eqn:E; [|discriminate]. intros [= <- ->]. exact (IH _ _ _ E).
  - destruct (2 <=? length inp)%nat; [|discriminate]. apply IH.
  - destruct (crun exc N X4 inp EEof) as [[o e]|] eqn:E; [|discriminate]. intros [= <- ->]. exact (IH _ _ _ E).
Qed.
Example C85_example : tc_inverse (TcGzip exw) exc /\ tc_inverse (TcFlate exw) exc /\ good_codec exc /\
  tc_run (TcGzip exw) (s2b "saviors!") = Ok (s2b "HSsaSviSorSs!E") /\
  tc_run (TcFlate exw) (s2b "savior!") = Err (EOther 2) /\ tc_fails (TcFlate exw) (s2b "savior!") (EOther 2).
Proof.
  split; [exact exw_inverse|]. split; [exact exw_inverse|]. split; [exact exw_good|]. split; [reflexivity|]. split; [reflexivity|].
  right. eexists _, _. split; [reflexivity|]. eapply FwClose; reflexivity.
Qed.
(** The same as a program and as a package without a way to fail at the start. *)
Definition exw_cmd : command := fun input => match writer_compress exw 9 input with Ok o => (o, None) | Err e => ([], Some e) | _ => ([], Some EIO) end.
Definition exw_b : bcomp := MkBcomp exw (fun _ => (None, s2b "H")).
Example C85_example_bzip2_brotli : tc_inverse (TcBzip2 exw_cmd) exc /\ tc_inverse (TcBrotli exw_b 5) exc /\
  tc_run (TcBzip2 exw_cmd) (s2b "ab") = Ok (s2b "HSabE") /\ tc_run (TcBrotli exw_b 5) (s2b "ab") = Ok (s2b "HSabE").
Proof.
  split; [|split; [|split; reflexivity]].
  - intros input out H. unfold exw_cmd in H. destruct (writer_compress exw 9 input) as [o|e| |] eqn:E; try discriminate. injection H as ->.
    exact (tc_decodes (TcGzip exw) exc input out exw_inverse E).
  - intros w b H input out Hw. cbn in H. injection H as <- <-. exact (exw_inverse None (s2b "H") eq_refl input out Hw).
Qed.
