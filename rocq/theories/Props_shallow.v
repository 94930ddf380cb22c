(** Props_shallow.v -- property C81: a save consumer that copies the checkpoint by
    assignment ([cp := *checkpoint]) and so shares its Entry with the extractor. *)
From Verif Require Import Base Base_proofs Source Contract Seek Decomp CodecSpec Drive SpoilSpec Stack_proofs Copier Sink SinkSpec NoteSpec Zip ZipSpec
  Settle_proofs Zip_proofs Shallow Shallow_proofs Zip2_proofs Zip3_proofs ExCodec ExSink ExZip Props_zip.
Open Scope Z_scope.

Section ZipShallow.
  Context (A : bytes) (C : codec) (fuel0 : nat) (pol : bool) (SK : sink) (L : sink_laws SK) (ms : list zmember).
  Context (HA : zarchive A C fuel0 pol L ms).
  Notation objects SV io fuel c st v := (zip_resume_objects SK C fuel0 SV (zfiles ms) io fuel c st v).

  Lemma shallow_run B (HB : Forall (mgood A C fuel0 pol B) ms) st0 st cks SV c io fuel v out ck s : kl_inv L st0 ->
    zlife A C fuel0 pol ms L st0 true st cks -> (forall c0, c = Some c0 -> In c0 cks) -> ios_ok A pol ms io ->
    out = zip_resume SK C fuel0 SV (zfiles ms) io fuel c st v -> In (ck, s) (zo_log _ _ _ _ out) ->
    kl_inv L (zo_sink _ _ _ _ out) /\ outside L (zitems ms) (kl_view L st0) (zo_sink _ _ _ _ out) /\
    zgood A C fuel0 pol ms SK L (kl_view L st0) B (zo_sink _ _ _ _ out) (shallow C fuel0 (objects SV io fuel c st v) ck).
  Proof.
    intros Hi Hl Hc Hio Hout Hin. pose proof (za_items A C fuel0 pol ms L HA) as Hv.
    destruct (life_good A C fuel0 pol ms L st0 true B Hv HB Hi _ _ Hl) as (I1 & I2 & I3 & _ & _).
    assert (Hpre : match c with Some c0 => Forall (zgood A C fuel0 pol ms SK L (kl_view L st0) B st) [c0] /\ csorted C fuel0 ms [c0] | None => True end).
    { destruct c as [c0|]; [|exact Logic.I]. split; [|repeat constructor]. constructor; [|constructor].
      rewrite Forall_forall in I3. exact (I3 c0 (Hc c0 eq_refl)). }
    destruct (zip_resume_ok A C fuel0 pol ms SK L SV (kl_view L st0) B Hv HB c [] io fuel st v out Hio I1 I2 Hpre Hout) as [[R1 R2 _ _ _ _ _ _ _ _ _] _].
    destruct (zip_resume_share A C fuel0 pol ms SK L SV (kl_view L st0) B Hv HB c [] io fuel st v out Hio I1 I2 Hpre Hout) as [S1 _].
    split; [exact R1|]. split; [exact R2|]. apply S1. apply in_or_app. left. apply -> in_rev. exact (in_map fst _ _ Hin).
  Qed.

  (** C81 (zip). After any history -- crashes, failures, retries, shallow copies resumed
      from before -- a run saves [ck] and ends in any way. What is then left of the shallow
      copy of [ck] is still a checkpoint: resuming from it over what the run left does not
      panic, and if it ends without error, has extracted exactly the archive. *)
  Theorem C81_zip_shallow st0 st cks SV c io fuel v out ck s SV' io' fuel' v' out' : kl_inv L st0 ->
    zlife A C fuel0 pol ms L st0 true st cks -> (forall c0, c = Some c0 -> In c0 cks) -> ios_ok A pol ms io ->
    out = zip_resume SK C fuel0 SV (zfiles ms) io fuel c st v -> In (ck, s) (zo_log _ _ _ _ out) ->
    ios_ok A pol ms io' ->
    out' = zip_resume SK C fuel0 SV' (zfiles ms) io' fuel' (Some (shallow C fuel0 (objects SV io fuel c st v) ck)) (zo_sink _ _ _ _ out) v' ->
    zo_res _ _ _ _ out' <> Panic /\
    forall l, zo_res _ _ _ _ out' = Ok l ->
      extracted L (zitems ms) (kl_view L st0) (zo_sink _ _ _ _ out') /\ l = zlisting (zfiles ms).
  Proof.
    intros Hi Hl Hc Hio Hout Hin Hio' Hout'.
    destruct (all_good A C fuel0 pol ms (za_ok _ _ _ _ _ _ HA)) as (B & HB).
    destruct (shallow_run B HB st0 st cks SV c io fuel v out ck s Hi Hl Hc Hio Hout Hin) as (R1 & R2 & Hg).
    destruct (zip_resume_ok A C fuel0 pol ms SK L SV' (kl_view L st0) B (za_items A C fuel0 pol ms L HA) HB
      (Some (shallow C fuel0 (objects SV io fuel c st v) ck)) [] io' fuel' _ v' out' Hio' R1 R2) as [[_ _ _ _ _ _ _ R' _ _ _] _]; auto.
    - split; [constructor; [exact Hg|constructor]|]. constructor; constructor.
    - split; [intros Hp; rewrite Hp in R'; exact R'|]. intros l Hl'. rewrite Hl' in R'. destruct R' as (R'' & R' & _). split; [|exact R''].
      apply settled_extracted. unfold zitems. rewrite map_length. exact R'.
  Qed.

  (** ... and it does end without error if nothing fails any more, provided that the
      sources announce their end apart from data ([pol], not [cd_eager]; see C18). *)
  Theorem C81_zip_shallow_completes : Forall (zsound C fuel0 L) ms -> existsb zencrypted ms = false -> pol = true -> cd_eager C = false ->
    exists B, forall st0 st cks SV c io fuel v out ck s SV' io' fuel' v' out', kl_inv L st0 ->
      zlife A C fuel0 pol ms L st0 true st cks -> (forall c0, c = Some c0 -> In c0 cks) -> ios_ok A pol ms io ->
      out = zip_resume SK C fuel0 SV (zfiles ms) io fuel c st v -> In (ck, s) (zo_log _ _ _ _ out) ->
      ios_ok A pol ms io' -> (forall i, io_good (io' i)) -> kl_clean L (zo_sink _ _ _ _ out) -> saver_goes_on SV' -> (B < fuel')%nat ->
      out' = zip_resume SK C fuel0 SV' (zfiles ms) io' fuel' (Some (shallow C fuel0 (objects SV io fuel c st v) ck)) (zo_sink _ _ _ _ out) v' ->
      zo_res _ _ _ _ out' = Ok (zlisting (zfiles ms)) /\ extracted L (zitems ms) (kl_view L st0) (zo_sink _ _ _ _ out').
  Proof.
    intros Hs He Hpol Heager. destruct (all_good A C fuel0 pol ms (za_ok _ _ _ _ _ _ HA)) as (B & HB). exists B.
    intros st0 st cks SV c io fuel v out ck s SV' io' fuel' v' out' Hi Hl Hc Hio Hout Hin Hio' Hgood Hcl Hsv Hf Hout'.
    destruct (shallow_run B HB st0 st cks SV c io fuel v out ck s Hi Hl Hc Hio Hout Hin) as (R1 & R2 & Hg).
    set (sh := shallow C fuel0 (objects SV io fuel c st v) ck) in *.
    destruct (zip_resume_ok A C fuel0 pol ms SK L SV' (kl_view L st0) B (za_items A C fuel0 pol ms L HA) HB
      (Some sh) [] io' fuel' _ v' out' Hio' R1 R2) as [[_ _ _ _ _ _ _ R' _ _ _] Hlive]; auto.
    { split; [constructor; [exact Hg|constructor]|]. constructor; constructor. }
    assert (Hr : zo_res _ _ _ _ out' = Ok (zlisting (zfiles ms))).
    { assert (He' : existsb enc (skipn (fst (start_of C fuel0 ms (Some sh))) ms) = false).
      { apply not_true_is_false. intros Hx. apply existsb_exists in Hx. destruct Hx as (m & Hm & Hx).
        assert (existsb zencrypted ms = true); [|congruence]. apply existsb_exists. exists m. split; [|exact Hx].
        rewrite <- (firstn_skipn (fst (start_of C fuel0 ms (Some sh))) ms). apply in_or_app. auto. }
      rewrite He' in Hlive. destruct Hlive as [(Hn & _)|[Hr _]]; [|exact Hcl|tauto|exact Hr]. split.
      - split; [exact (goes_on_noerr _ Hsv)|]. split; [exact Hf|].
        intros i m _ Hn _. rewrite Forall_forall in Hs. destruct (Hs m (nth_error_In _ _ Hn)) as [S1 S2]. splits; auto.
      - destruct Hg as ((_ & [(G1 & G2 & _)|(m & w & G1 & _)]) & _).
        + left. rewrite G2. unfold ck_woff. rewrite G1. lia.
        + right. exists m. split; [exact G1|]. right. unfold zpolite. rewrite Hpol, Heager. destruct (is_store m); reflexivity. }
    split; [exact Hr|]. rewrite Hr in R'. destruct R' as (_ & R' & _). apply settled_extracted. unfold zitems. rewrite map_length. exact R'.
  Qed.
End ZipShallow.

(** Not vacuous: the archive of ExZip.v is extracted by a process that saves at byte 4 of 6
    of the third entry, goes on, and dies after a few more operations. The copy then says 6
    with a source position of 4; resuming from it skips two bytes of the source and goes on. *)
Definition esh_run n := zip_resume (crashing map_sink) exC exF ex_saver (zfiles ex_ms) ex_io 50 None (map_empty, Some n) (0%nat, []).
Definition esh_os n := zip_resume_objects (crashing map_sink) exC exF ex_saver (zfiles ex_ms) ex_io 50 None (map_empty, Some n) (0%nat, []).
Definition esh_cks n := map (shallow exC exF (esh_os n)) (rev (map fst (zo_log _ _ _ _ (esh_run n)))).
Definition esh_show (c : zeck exC exF) := (ec_index c, ck_woff exC exF c, option_map ck_off (ec_src c)).
Definition esh_again := ExZip.ex_run 0%nat (hd_error (esh_cks 13)) (fst (zo_sink _ _ _ _ (esh_run 13))).
Lemma esh_zm_ok : Forall (zm_ok exA exC exF true) ex_ms.
Proof.
  repeat constructor.
  - exists 5%nat, true, true.
    change (stk_den true (s2b "hello") 0 5 KSeek (s2b "hello") EEof 5 true true false).
    exact (DenSeek true (s2b "hello") 0 5 ltac:(lia) ltac:(lia) ltac:(unfold two63; lia)).
  - exists 36%nat, true, true.
    change (stk_den true ex_in 0 8 (KDec exC flate_cfg exF KSeek) ex_out EEof (30 + 6) true true false).
    refine (DenDec true ex_in 0 8 exC flate_cfg 100 KSeek ex_in EEof 8 true false 30 ex_out EEof true
      _ _ _ _ _ _ _ _ _); try reflexivity; try discriminate; try lia.
    + exact (DenSeek true ex_in 0 8 ltac:(lia) ltac:(lia) ltac:(unfold two63; lia)).
    + apply ex_saves_ok.
    + intros _. split; [reflexivity|]. vm_compute. splits; try reflexivity; exact I.
Qed.
Lemma esh_archive : zarchive exA exC exF true map_laws ex_ms.
Proof. split; [exact esh_zm_ok|]. repeat constructor. Qed.
Lemma esh_ios : ios_ok exA true ex_ms ex_io.
Proof.
  intros i m Hm. unfold ex_io. rewrite (nth_error_nth _ _ _ Hm). split; [|split]; cbn.
  - reflexivity.
  - intros off n. split; [reflexivity|]. intros _ k [].
  - apply app_nil_r.
Qed.
Lemma esh_life : zlife exA exC exF true ex_ms map_laws map_empty true (fst (zo_sink _ _ _ _ (esh_run 13))) (esh_cks 13).
Proof. exact (ZlFreshShallow exA exC exF true ex_ms map_laws map_empty true map_empty [] ex_saver ex_io 50 (0%nat, []) (Some 13%nat) _ _
          eq_refl (ZlStart _ _ _ _ _ _ _ _) esh_ios eq_refl eq_refl). Qed.
Example C81_zip_example :
  zarchive exA exC exF true map_laws ex_ms /\ ios_ok exA true ex_ms ex_io /\ cd_eager exC = false /\
  zlife exA exC exF true ex_ms map_laws map_empty true (fst (zo_sink _ _ _ _ (esh_run 13))) (esh_cks 13) /\
  zo_res _ _ _ _ (esh_run 13) = Err EIO /\
  map esh_show (map fst (zo_log _ _ _ _ (esh_run 13))) = [(2, 4, Some 4)] /\
  map esh_show (esh_cks 13) = [(2, 6, Some 4)] /\
  zo_res _ _ _ _ esh_again = Ok (zlisting (zfiles ex_ms)) /\
  ms_view (zo_sink _ _ _ _ esh_again) (s2b "b") = Some (NFile (s2b "aabbcc")).
Proof.
  split; [exact esh_archive|]. split; [exact esh_ios|]. split; [reflexivity|]. split; [exact esh_life|]. splits; vm_compute; reflexivity.
Qed.
