(** Props_kept.v -- property C78: a save consumer that keeps the checkpoint object
    it is given instead of a copy. *)
From Verif Require Import Base Base_proofs Source Contract Seek Decomp CodecSpec Drive SpoilSpec Stack_proofs Copier Sink SinkSpec NoteSpec Zip ZipSpec
  Settle_proofs Zip_proofs Zip2_proofs Zip3_proofs ExCodec ExSink ExZip StopSpec Stop_proofs Stop2_proofs Stop3_proofs Props_zip.
Open Scope Z_scope.

Section ZipSpent.
  Context (SK : sink) (C : codec) (fuel0 : nat) (SV : saver (zck C fuel0) unit).
  Definition blank (c : zeck C fuel0) : Prop := ec_entry c = None /\ ec_src c = None.

  Lemma zloop_blank io fuel total : forall files i done x x',
    zip_loop SK C fuel0 SV io fuel files i done total x = (x', Ok tt) ->
    Zip.x_stoperr SK C fuel0 SV x = false \/ blank (Zip.x_ck SK C fuel0 SV x) -> files <> [] \/ blank (Zip.x_ck SK C fuel0 SV x) ->
    blank (Zip.x_ck SK C fuel0 SV x').
  Proof.
    induction files as [|zf rest IH]; intros i done x x'; cbn [zip_loop].
    - intros [= <-] _ [H|H]; [congruence|exact H].
    - destruct (Zip.x_stoperr SK C fuel0 SV x) eqn:Es; [intros [= <-] [H|H] _; [discriminate|exact H]|].
      destruct (zip_entry _ _ _ _ _ _ _ _ _ _ x) as [x1 [u|e| |]] eqn:Ee; try (cbn; discriminate).
      intros Hl _ _. eapply IH; [exact Hl| |]; right; split; reflexivity.
  Qed.
End ZipSpent.

Section ZipKept.
  Context (A : bytes) (C : codec) (fuel0 : nat) (pol : bool) (SK : sink) (L : sink_laws SK) (ms : list zmember).
  Context (HA : zarchive A C fuel0 pol L ms).

  (** C78 (zip). However a run has ended -- done, stopped, failed, or out of fuel --
      resuming from the object that it passed to Save, over what it left in the
      sink, does not panic, and if it ends without error, has extracted exactly the archive. *)
  Theorem C78_zip_kept_object st0 SV c io fuel st out SV' io' fuel' v' out' : kl_inv L st0 ->
    zrun A C fuel0 pol ms L st0 true SV c io fuel st out -> ios_ok A pol ms io' ->
    out' = zip_resume SK C fuel0 SV' (zfiles ms) io' fuel' (Some (zo_obj _ _ _ _ out)) (zo_sink _ _ _ _ out) v' ->
    zo_res _ _ _ _ out' <> Panic /\
    forall l, zo_res _ _ _ _ out' = Ok l ->
      extracted L (zitems ms) (kl_view L st0) (zo_sink _ _ _ _ out') /\ l = zlisting (zfiles ms).
  Proof.
    intros Hi Hrun Hio Hout'.
    destruct (all_good A C fuel0 pol ms (za_ok _ _ _ _ _ _ HA)) as (B & HB).
    destruct (zrun_ok A C fuel0 pol ms L st0 true SV B HA Hi HB _ _ _ _ _ Hrun) as (earlier & [R1 R2 _ _ _ _ _ _ _ Hg _] & _).
    destruct (zip_resume_ok A C fuel0 pol ms SK L SV' (kl_view L st0) B (za_items A C fuel0 pol ms L HA) HB
      (Some (zo_obj _ _ _ _ out)) [] io' fuel' _ v' out' Hio R1 R2) as [[_ _ _ _ _ _ _ R' _ _ _] _]; auto.
    - split; [constructor; [exact Hg|constructor]|]. constructor; constructor.
    - split; [intros Hp; rewrite Hp in R'; exact R'|]. intros l Hl. rewrite Hl in R'. destruct R' as (R'' & R' & _). split; [|exact R''].
      apply settled_extracted. unfold zitems. rewrite map_length. exact R'.
  Qed.

  (** After a run that was stopped, or done, the object holds no position within an
      entry any more (only the number of the entry that the run was at). *)
  Lemma zrun_blank st0 SV c io fuel st out : kl_inv L st0 ->
    zrun A C fuel0 pol ms L st0 true SV c io fuel st out ->
    sink_no_stop SK -> saver_no_stop SV -> (forall i, zio_no_stop (io i)) ->
    (exists l, zo_res _ _ _ _ out = Ok l) \/ zo_res _ _ _ _ out = Err EStop -> blank C fuel0 (zo_obj _ _ _ _ out).
  Proof.
    intros Hi Hrun HK HV HI Hres.
    destruct (all_good A C fuel0 pol ms (za_ok _ _ _ _ _ _ HA)) as (B & HB).
    assert (Hc : exists v, out = zip_resume SK C fuel0 SV (zfiles ms) io fuel c st v /\
      match c with Some ck => Zip_proofs.zgood A C fuel0 pol ms SK L (kl_view L st0) B st ck | None => True end).
    { destruct Hrun as [st cks io fuel v out Hl Hio Hout|st later c earlier io fuel v out Hl Hio Hout]; exists v; split; auto.
      destruct (life_good A C fuel0 pol ms L st0 true B (za_items A C fuel0 pol ms L HA) HB Hi _ _ Hl) as (_ & _ & H & _).
      apply Forall_app in H. destruct H as [_ H]. inversion H; assumption. }
    clear Hrun. destruct Hc as (v & -> & Hg). revert Hres. unfold zip_resume. cbv zeta.
    set (ck := match c with Some ck => ck | None => MkEck None 0 None (Some 0%Q) None end).
    assert (HP : forall fs s0, snd (zip_preallocate SK fs s0) <> Some EStop).
    { destruct HK as (_ & _ & _ & HK4 & _). induction fs as [|f fs IH]; intros s0; cbn [zip_preallocate]; [discriminate|].
      destruct (en_kind _); auto. pose proof (HK4 s0 (zip_entry_of f)) as H4. destruct (k_prealloc SK s0 _) as [s1 [e|]]; auto.
      cbn in *. intros [= E]. apply (with_stack_no_stop e); congruence. }
    assert (HP' : snd (match c with None => zip_preallocate SK (zfiles ms) st | Some _ => (st, None) end) <> Some EStop) by (destruct c; [discriminate|apply HP]).
    destruct (match c with None => zip_preallocate SK (zfiles ms) st | Some _ => (st, None) end) as [s1 [e|]] eqn:Hpre.
    { cbn. cbn in HP'. intros [(l & H)|H]; congruence. }
    destruct (ec_index ck <? 0) eqn:Hneg; [cbn; intros [(l & H)|H]; congruence|].
    match goal with |- context[zip_loop SK C fuel0 SV io fuel ?fs ?i ?d ?t ?x] => destruct (zip_loop SK C fuel0 SV io fuel fs i d t x) as [x' r] eqn:El end.
    pose proof (zip_loop_quiet SK C fuel0 SV HK HV io fuel _ HI _ _ _ _ _ _ El) as HQ.
    cbn [zo_res zo_obj]. intros Hr.
    assert (r = Ok tt) as ->. { destruct r as [[]|e| |]; [reflexivity|..]; destruct Hr as [(l & Hr)|Hr]; congruence. }
    eapply zloop_blank; [exact El|left; reflexivity|]. cbn [Zip.x_ck].
    destruct (skipn (Z.to_nat (ec_index ck)) (zfiles ms)) eqn:Hsk; [right|left; discriminate].
    unfold ck. destruct c as [ck'|]; [|split; reflexivity].
    destruct Hg as ((Hx & [(H1 & H2 & _)|(m & w & H1 & _)]) & _); [split; assumption|].
    assert (Hlen : (cidx C fuel0 ck' < length ms)%nat) by (apply nth_error_Some; congruence).
    assert (Hl2 : length (skipn (Z.to_nat (ec_index ck)) (zfiles ms)) = 0%nat) by (rewrite Hsk; reflexivity).
    rewrite skipn_length in Hl2. unfold zfiles in Hl2. rewrite map_length in Hl2. unfold cidx in Hlen. subst ck. lia.
  Qed.

  (** ... and resuming from it does end without error if nothing fails any more. *)
  Theorem C78_zip_kept_object_completes : Forall (zsound C fuel0 L) ms -> existsb zencrypted ms = false ->
    exists B, forall st0 SV c io fuel st out SV' io' fuel' v' out', kl_inv L st0 ->
      zrun A C fuel0 pol ms L st0 true SV c io fuel st out ->
      sink_no_stop SK -> saver_no_stop SV -> (forall i, zio_no_stop (io i)) ->
      (exists l, zo_res _ _ _ _ out = Ok l) \/ zo_res _ _ _ _ out = Err EStop ->
      ios_ok A pol ms io' -> (forall i, io_good (io' i)) -> kl_clean L (zo_sink _ _ _ _ out) -> saver_goes_on SV' -> (B < fuel')%nat ->
      out' = zip_resume SK C fuel0 SV' (zfiles ms) io' fuel' (Some (zo_obj _ _ _ _ out)) (zo_sink _ _ _ _ out) v' ->
      zo_res _ _ _ _ out' = Ok (zlisting (zfiles ms)) /\ extracted L (zitems ms) (kl_view L st0) (zo_sink _ _ _ _ out').
  Proof.
    intros Hs He. destruct (all_good A C fuel0 pol ms (za_ok _ _ _ _ _ _ HA)) as (B & HB). exists B.
    intros st0 SV c io fuel st out SV' io' fuel' v' out' Hi Hrun HK HV HI Hres Hio Hgood Hcl Hsv Hf Hout'.
    pose proof (zrun_blank st0 SV c io fuel st out Hi Hrun HK HV HI Hres) as [Hb1 Hb2].
    destruct (zrun_ok A C fuel0 pol ms L st0 true SV B HA Hi HB _ _ _ _ _ Hrun) as (earlier & [R1 R2 _ _ _ _ _ _ _ Hg _] & _).
    destruct (zip_resume_ok A C fuel0 pol ms SK L SV' (kl_view L st0) B (za_items A C fuel0 pol ms L HA) HB
      (Some (zo_obj _ _ _ _ out)) [] io' fuel' _ v' out' Hio R1 R2) as [[_ _ _ _ _ _ _ R' _ _ _] Hlive]; auto.
    { split; [constructor; [exact Hg|constructor]|]. constructor; constructor. }
    assert (Hr : zo_res _ _ _ _ out' = Ok (zlisting (zfiles ms))).
    { assert (He' : existsb enc (skipn (fst (start_of C fuel0 ms (Some (zo_obj _ _ _ _ out)))) ms) = false).
      { apply not_true_is_false. intros Hx. apply existsb_exists in Hx. destruct Hx as (m & Hm & Hx).
        assert (existsb zencrypted ms = true); [|congruence]. apply existsb_exists. exists m. split; [|exact Hx].
        rewrite <- (firstn_skipn (fst (start_of C fuel0 ms (Some (zo_obj _ _ _ _ out)))) ms). apply in_or_app. auto. }
      rewrite He' in Hlive. destruct Hlive as [(Hn & _)|[Hr _]]; [|exact Hcl|tauto|exact Hr]. split.
      - split; [exact (goes_on_noerr _ Hsv)|]. split; [exact Hf|].
        intros i m _ Hn _. rewrite Forall_forall in Hs. destruct (Hs m (nth_error_In _ _ Hn)) as [S1 S2]. splits; auto.
      - left. rewrite Hb2. unfold ck_woff. rewrite Hb1. lia. }
    split; [exact Hr|]. rewrite Hr in R'. destruct R' as (_ & R' & _). apply settled_extracted. unfold zitems. rewrite map_length. exact R'.
  Qed.
End ZipKept.

(** Not vacuous: the run of ExZip.v that is stopped in the middle of the third entry.
    The object that was saved has lost that position; resuming from it repeats the entry. *)
Definition ek_again := ex_run 0%nat (Some (zo_obj _ _ _ _ ex_first)) (zo_sink _ _ _ _ ex_first).
Lemma ek_zrun : zrun exA exC exF false ex_ms map_laws map_empty true ex_saver None ex_io 50 map_empty ex_first.
Proof. exact (ZrFresh exA exC exF false ex_ms map_laws map_empty true ex_saver map_empty [] ex_io 50 (1%nat, []) _ (ZlStart _ _ _ _ _ _ _ _) ex_ios eq_refl). Qed.
Example C78_zip_example :
  zo_res _ _ _ _ ex_first = Err EStop /\
  map (fun cs => (ec_index (fst cs), ck_woff exC exF (fst cs))) (zo_log _ _ _ _ ex_first) = [(2, 4)] /\
  (ec_index (zo_obj _ _ _ _ ex_first), ck_woff exC exF (zo_obj _ _ _ _ ex_first)) = (2, 0) /\
  ms_view (zo_sink _ _ _ _ ex_first) (s2b "b") = Some (NFile (s2b "aabb")) /\
  zo_res _ _ _ _ ek_again = Ok (zlisting (zfiles ex_ms)) /\
  ms_view (zo_sink _ _ _ _ ek_again) (s2b "b") = Some (NFile (s2b "aabbcc")).
Proof. splits; vm_compute; reflexivity. Qed.
Lemma map_sink_no_stop : sink_no_stop map_sink.
Proof. unfold sink_no_stop. splits; intros; try (cbn; discriminate). cbn. destruct (ms_view s _) as [[| |]|]; discriminate. Qed.
Lemma ex_saver_no_stop {CK} : saver_no_stop (@ex_saver CK).
Proof. intros v c. cbn. discriminate. Qed.
Lemma ex_io_no_stop i : zio_no_stop (ex_io i).
Proof. unfold zio_no_stop, ex_io. cbn [zi_dataoff zi_open]. split; [discriminate|]. split; [discriminate|]. intros ch [= _ H]. Qed.
