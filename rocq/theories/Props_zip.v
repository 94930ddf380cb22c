(** Props_zip.v -- properties C34-C43: the zip extractor.
    [SK] is any sink that stores what it is given ([sink_laws], SinkSpec.v); its
    operations may fail at any time. [A] is the archive, [ms] its members, [C] the
    deflate decompressor; [SV] is any save consumer; the archive reader may fail
    at any time ([ios_ok]). [zrun ... c io fuel st out]: a call of Resume with
    checkpoint c, at any point of a life [zlife] of interrupted, failed and killed
    earlier runs, that began with the sink in state st0. *)
From Verif Require Import Base Base_proofs Source Seek Decomp CodecSpec Drive Copier Sink Zip SinkSpec NoteSpec ZipSpec
  Settle_proofs Zip_proofs Zip2_proofs Zip3_proofs Order_proofs Path PathSpec Path_proofs ExCodec ExSink ExZip.
From Coq Require Import Sorted.

(** C34. If Resume(nil) returns no error, the sink holds exactly the archive,
    everything else being as before, and no member was damaged. *)
Theorem C34_zip_exact A C fuel0 pol SK (L : sink_laws SK) ms SV st io fuel v out l :
  zarchive A C fuel0 pol L ms -> kl_inv L st -> ios_ok A pol ms io ->
  out = zip_resume SK C fuel0 SV (zfiles ms) io fuel None st v -> zo_res _ _ _ _ out = Ok l ->
  extracted L (zitems ms) (kl_view L st) (zo_sink _ _ _ _ out) /\
  forall m, In m ms -> zm_via C fuel0 m <> None -> zm_err m = EEof.
Proof.
  intros HA Hi Hio Hout Hres.
  destruct (zrun_extracted A C fuel0 pol ms L st false SV HA Hi None io fuel st out l) as (H1 & _ & H3); auto.
  - eapply ZrFresh; [apply ZlStart|exact Hio|exact Hout].
  - split; [exact H1|]. intros m Hm. destruct (In_nth_error _ _ Hm) as (i & Hn). apply (H3 i); [cbn; lia|exact Hn].
Qed.

(** ... and it does return without error if nothing fails: no I/O errors, a
    save consumer that goes on, nothing encrypted or damaged. *)
Theorem C34_zip_completes A C fuel0 pol SK (L : sink_laws SK) ms :
  zarchive A C fuel0 pol L ms -> Forall (zsound C fuel0 L) ms -> existsb zencrypted ms = false ->
  exists B, forall SV st io fuel v out,
    kl_inv L st -> kl_clean L st -> ios_ok A pol ms io -> (forall i, io_good (io i)) -> saver_goes_on SV -> (B < fuel)%nat ->
    out = zip_resume SK C fuel0 SV (zfiles ms) io fuel None st v ->
    zo_res _ _ _ _ out = Ok (zlisting (zfiles ms)) /\ extracted L (zitems ms) (kl_view L st) (zo_sink _ _ _ _ out).
Proof.
  intros HA Hs He. destruct (all_good A C fuel0 pol ms (za_ok _ _ _ _ _ _ HA)) as (B & HB). exists B.
  intros SV st io fuel v out Hi Hc Hio Hg Hsv Hf Hout.
  assert (Hrun : zrun A C fuel0 pol ms L st false SV None io fuel st out) by (eapply ZrFresh; [apply ZlStart|exact Hio|exact Hout]).
  destruct (zrun_ok A C fuel0 pol ms L st false SV B HA Hi HB _ _ _ _ _ Hrun) as (earlier & _ & _ & _ & _ & Hlive).
  assert (Hr : zo_res _ _ _ _ out = Ok (zlisting (zfiles ms))).
  { assert (He' : existsb enc (skipn (fst (start_of C fuel0 ms None)) ms) = false) by exact He.
    rewrite He' in Hlive. apply (Hlive Hsv); [|exact Hc]. split; [|exact Logic.I]. split; [exact (goes_on_noerr _ Hsv)|]. split; [exact Hf|].
    intros i m _ Hn _. rewrite Forall_forall in Hs. destruct (Hs m (nth_error_In _ _ Hn)) as [S1 S2]. splits; auto. }
  split; [exact Hr|]. eapply (proj1 (zrun_extracted A C fuel0 pol ms L st false SV HA Hi _ _ _ _ _ _ Hrun Hr)).
Qed.

(** ... in order: whatever the sink, the reader and the save consumer do, the
    entries handed to the sink (Mkdir, Symlink, GetWriter) are the first n of
    the archive, each once, after nothing but Preallocate calls; without error, all. *)
Theorem C34_zip_in_order SK C fuel0 SV files io fuel s v out :
  out = zip_resume (noted SK) C fuel0 SV files io fuel None (s, []) v ->
  exists n pre t, snd (zo_sink _ _ _ _ out) = pre ++ t /\ Forall only_prealloc pre /\
    Forall (fun v => only_data v \/ handed_one v <> []) t /\ match t with v :: _ => handed_one v <> [] | [] => True end /\
    handed_entries (snd (zo_sink _ _ _ _ out)) = zlisting (firstn n files) /\
    (forall l, zo_res _ _ _ _ out = Ok l -> n = length files).
Proof.
  intros Hout.
  destruct (resume_order SK C fuel0 SV files io fuel None s v out ltac:(discriminate) Hout) as (pre & t & n & H1 & H2 & H3 & H4 & H5 & H6 & H7).
  cbv zeta in *. change (Z.to_nat 0) with 0%nat in *. cbn [skipn] in *.
  exists n, pre, t. splits; auto.
  - unfold zlisting; rewrite H5, <- firstn_map. f_equal. destruct files; reflexivity.
  - intros l Hl. exact (proj1 (H7 l Hl)).
Qed.

(** C35. A run from any checkpoint that ends without error leaves the sink
    with exactly the archive, compared to the state before the very first run,
    and returns the same result as an uninterrupted one. *)
Theorem C35_zip_resume_exact A C fuel0 pol SK (L : sink_laws SK) ms st0 SV c io fuel st out l :
  zarchive A C fuel0 pol L ms -> kl_inv L st0 ->
  zrun A C fuel0 pol ms L st0 false SV c io fuel st out -> zo_res _ _ _ _ out = Ok l ->
  extracted L (zitems ms) (kl_view L st0) (zo_sink _ _ _ _ out) /\ l = zlisting (zfiles ms).
Proof.
  intros HA Hi Hrun Hres. destruct (zrun_extracted A C fuel0 pol ms L st0 false SV HA Hi _ _ _ _ _ _ Hrun Hres) as (H1 & H2 & _). auto.
Qed.

(** There is only one such contents. *)
Theorem C35_same_contents SK (L : sink_laws SK) items view0 s1 s2 :
  extracted L items view0 s1 -> extracted L items view0 s2 -> forall l, kl_view L s1 l = kl_view L s2 l.
Proof. apply extracted_unique. Qed.

(** ... and such a run does end without error if nothing fails any more, from
    whatever checkpoint. *)
Theorem C35_zip_resume_completes A C fuel0 pol SK (L : sink_laws SK) ms :
  zarchive A C fuel0 pol L ms -> Forall (zsound C fuel0 L) ms -> existsb zencrypted ms = false ->
  exists B, forall st0 SV c io fuel st out,
    kl_inv L st0 -> zrun A C fuel0 pol ms L st0 false SV c io fuel st out ->
    kl_clean L st -> (forall i, io_good (io i)) -> saver_goes_on SV -> (B < fuel)%nat ->
    zo_res _ _ _ _ out = Ok (zlisting (zfiles ms)) /\ extracted L (zitems ms) (kl_view L st0) (zo_sink _ _ _ _ out).
Proof.
  intros HA Hs He. destruct (all_good A C fuel0 pol ms (za_ok _ _ _ _ _ _ HA)) as (B & HB). exists B.
  intros st0 SV c io fuel st out Hi Hrun Hc Hg Hsv Hf.
  destruct (zrun_ok A C fuel0 pol ms L st0 false SV B HA Hi HB _ _ _ _ _ Hrun) as (earlier & _ & Ht & _ & _ & Hlive).
  assert (Hr : zo_res _ _ _ _ out = Ok (zlisting (zfiles ms))).
  { assert (He' : existsb enc (skipn (fst (start_of C fuel0 ms c)) ms) = false).
    { apply not_true_is_false. intros Hx. apply existsb_exists in Hx. destruct Hx as (m & Hm & Hx).
      assert (existsb zencrypted ms = true); [|congruence]. apply existsb_exists. exists m. split; [|exact Hx].
      rewrite <- (firstn_skipn (fst (start_of C fuel0 ms c)) ms). apply in_or_app. auto. }
    rewrite He' in Hlive. apply (Hlive Hsv); [|exact Hc]. split.
    - split; [exact (goes_on_noerr _ Hsv)|]. split; [exact Hf|].
      intros i m _ Hn _. rewrite Forall_forall in Hs. destruct (Hs m (nth_error_In _ _ Hn)) as [S1 S2]. splits; auto.
    - specialize (Ht eq_refl). destruct c; [exact (proj1 Ht)|exact Logic.I]. }
  split; [exact Hr|]. eapply (proj1 (zrun_extracted A C fuel0 pol ms L st0 false SV HA Hi _ _ _ _ _ _ Hrun Hr)).
Qed.

(** Not vacuous: ExZip.v stops in the middle of a file and resumes; the
    hypotheses hold there, and so do those on the archive and on the environment. *)
Example C35_example :
  zarchive exA exC exF false map_laws ex_ms /\
  zrun exA exC exF false ex_ms map_laws map_empty false ex_saver ex_ck ex_io 50 (fst (zo_sink _ _ _ _ ex_first0)) ex_second /\
  ex_ck <> None /\ Forall (zsound exC exF map_laws) ex_ms /\ existsb zencrypted ex_ms = false /\ (forall i, io_good (ex_io i)).
Proof.
  split; [exact ex_archive|]. split; [exact ex_zrun|]. split; [|split; [|split]].
  - destruct ex_ck_some as (c & -> & _). discriminate.
  - repeat constructor.
  - reflexivity.
  - exact ex_io_good.
Qed.

(** C36. When Save is called, the checkpoint names the file being extracted, and
    whatever the file system keeps of it over a power loss has exactly the length
    WriteOffset, and contains the first bytes of the member (if no later
    member has the same location, in which case it will be overwritten). *)
Theorem C36_zip_checkpoint_synced A C fuel0 pol SK (L : sink_laws SK) ms st0 mem SV dur c io fuel st out :
  zarchive A C fuel0 pol L ms -> kl_inv L st0 -> dur_ok L dur ->
  zrun A C fuel0 pol ms L st0 mem SV c io fuel st out ->
  forall c1 s, In (c1, s) (zo_log _ _ _ _ out) ->
  exists i m w, ec_index c1 = Z.of_nat i /\ nth_error ms i = Some m /\ en_kind (zm_entry m) = EkFile /\
    ec_entry c1 = Some (set_woff (zm_entry m) (Z.of_nat w)) /\ (w <= length (zm_data m))%nat /\
    forall l, kl_of L (zm_entry m) = Some l ->
      exists content, dur s l = Some (NFile content) /\ length content = w /\
        (is_last L (zitems ms) i l -> content = firstn w (zm_data m)).
Proof.
  intros HA Hi Hd Hrun c1 s Hin.
  destruct (all_good A C fuel0 pol ms (za_ok _ _ _ _ _ _ HA)) as (B & HB).
  destruct (zrun_ok A C fuel0 pol ms L st0 mem SV B HA Hi HB _ _ _ _ _ Hrun) as (earlier & [_ _ _ _ R _ _ _ _ _] & _).
  rewrite Forall_forall in R. specialize (R _ Hin).
  destruct R as (m & k & w & sc & R1 & R2 & R3 & R4 & R5 & R6 & (m' & R7 & R7') & R8 & ((R9 & _) & R10 & R11) & R12).
  exists (cidx C fuel0 c1), m, w. splits; auto.
  - eapply via_kind; exact R2.
  - cbn [fst snd] in R7, R7'. congruence.
  - intros l Hl. destruct (R12 l Hl) as (s0 & wr & I0 & O0 & Hsync).
    destruct (kl_sync _ L _ _ _ _ _ _ I0 O0 Hsync) as (I1 & O1 & _ & Hv).
    destruct (kl_open_file _ L _ _ _ _ I1 O1) as (ct & Hct & Hlen).
    exists ct. rewrite (Hd _ _ _ _ _ I0 O0 Hsync). splits; auto.
    intros Hlast. destruct w as [|w]; [destruct ct; [reflexivity|discriminate]|].
    assert (Hkind : en_kind (zm_entry m) = EkFile) by (eapply via_kind; exact R2).
    assert (Hit : nth_error (zitems ms) (cidx C fuel0 c1) = Some (zm_entry m, NFile (zm_data m))).
    { unfold zitems. rewrite nth_error_map, R1. cbn. unfold zm_item, zm_node. rewrite Hkind. reflexivity. }
    rewrite R8 in R11. destruct (R11 _ _ l Hit Hl Hlast ltac:(lia)) as (c2 & E1 & E2 & E3).
    rewrite Hct in E1. injection E1 as <-. rewrite <- E3, <- Hlen, firstn_all. reflexivity.
Qed.

Example C36_example : dur_ok map_laws (ms_dur : k_st map_sink -> kl_loc map_laws -> option node) /\
  exists s c, In (c, s) (zo_log _ _ _ _ ex_first) /\ ms_dur s (s2b "b") = Some (NFile (s2b "aabb")).
Proof.
  split.
  - intros st w l off st' _ (-> & ct & H1 & H2). injection 1 as <-. cbn. rewrite upd_same, H1. reflexivity.
  - assert (H : map (fun cs => ms_dur (snd cs) (s2b "b")) (zo_log _ _ _ _ ex_first) = [Some (NFile (s2b "aabb"))]) by (vm_compute; reflexivity).
    destruct (zo_log _ _ _ _ ex_first) as [|[c s] [|]]; try discriminate. injection H as H. exists s, c. split; [left; reflexivity|exact H].
Qed.

(** C37. False of the code: only the file being extracted is synced. Two files;
    the power fails right after the checkpoint in the second one was saved; resuming
    succeeds, but the first file is empty. *)
Theorem C37_zip_power_loss_refuted :
  exists (c : zeck exC exF) (s : mstate) out,
    zarchive exA exC exF false map_laws ex_ms /\
    dur_ok map_laws (ms_dur : k_st map_sink -> kl_loc map_laws -> option node) /\
    In (c, s) (zo_log _ _ _ _ ex_first) /\
    out = zip_resume map_sink exC exF ex_saver (zfiles ex_ms) ex_io 50 (Some c) (map_power_loss s) (0%nat, []) /\
    zo_res _ _ _ _ out = Ok (zlisting (zfiles ex_ms)) /\
    ms_view (zo_sink _ _ _ _ out) (s2b "d/a") = Some (NFile []) /\
    ~ extracted map_laws (zitems ex_ms) (ms_view map_empty) (zo_sink _ _ _ _ out).
Proof.
  destruct (zo_log _ _ _ _ ex_first) as [|[c s] rest] eqn:Hlog.
  { assert (H : length (zo_log _ _ _ _ ex_first) = 1%nat) by (vm_compute; reflexivity). rewrite Hlog in H. discriminate. }
  assert (H : forall P : option ((zeck exC exF * mstate)%type) -> Prop, P (hd_error (zo_log _ _ _ _ ex_first)) -> P (Some (c, s))).
  { rewrite Hlog. auto. }
  exists c, s. eexists. splits.
  - exact ex_archive.
  - exact (proj1 C36_example).
  - left. reflexivity.
  - reflexivity.
  - apply (H (fun o => match o with Some (c, s) =>
      zo_res _ _ _ _ (zip_resume map_sink exC exF ex_saver (zfiles ex_ms) ex_io 50 (Some c) (map_power_loss s) (0%nat, [])) = Ok (zlisting (zfiles ex_ms)) | None => False end)).
    vm_compute. reflexivity.
  - apply (H (fun o => match o with Some (c, s) =>
      ms_view (zo_sink _ _ _ _ (zip_resume map_sink exC exF ex_saver (zfiles ex_ms) ex_io 50 (Some c) (map_power_loss s) (0%nat, []))) (s2b "d/a") = Some (NFile []) | None => False end)).
    vm_compute. reflexivity.
  - intros (Hx & _).
    specialize (Hx 1%nat (zm_entry ex_m1) (NFile (s2b "hello")) (s2b "d/a") eq_refl eq_refl).
    assert (Hw : ms_view (zo_sink _ _ _ _ (zip_resume map_sink exC exF ex_saver (zfiles ex_ms) ex_io 50 (Some c) (map_power_loss s) (0%nat, []))) (s2b "d/a") = Some (NFile [])).
    { apply (H (fun o => match o with Some (c, s) =>
        ms_view (zo_sink _ _ _ _ (zip_resume map_sink exC exF ex_saver (zfiles ex_ms) ex_io 50 (Some c) (map_power_loss s) (0%nat, []))) (s2b "d/a") = Some (NFile []) | None => False end)).
      vm_compute. reflexivity. }
    assert (Hl : is_last map_laws (zitems ex_ms) 1 (s2b "d/a")).
    { intros j it Hj Hn. do 5 (destruct j as [|j]; [try lia; injection Hn as <-; vm_compute; discriminate|]). destruct j; discriminate. }
    specialize (Hx Hl). change (kl_view map_laws) with ms_view in Hx. rewrite Hw in Hx. discriminate.
Qed.

(** What does hold: if the power loss spares everything but the file being
    extracted (of which at least the synced bytes survive), resuming from the
    checkpoint gives the right result. *)
Theorem C37_zip_power_loss_partial A C fuel0 pol SK (L : sink_laws SK) ms st0 mem SV dur c io fuel st out c1 s st1 SV' io' fuel' v' out' l :
  zarchive A C fuel0 pol L ms -> kl_inv L st0 -> dur_ok L dur ->
  zrun A C fuel0 pol ms L st0 mem SV c io fuel st out -> In (c1, s) (zo_log _ _ _ _ out) ->
  kl_inv L st1 ->
  (forall l', (forall e, ec_entry c1 = Some e -> kl_of L e <> Some l') -> kl_view L st1 l' = kl_view L s l') ->
  (forall e l' ct, ec_entry c1 = Some e -> kl_of L e = Some l' -> dur s l' = Some (NFile ct) ->
     exists ct', kl_view L st1 l' = Some (NFile (ct ++ ct'))) ->
  ios_ok A pol ms io' -> out' = zip_resume SK C fuel0 SV' (zfiles ms) io' fuel' (Some c1) st1 v' -> zo_res _ _ _ _ out' = Ok l ->
  extracted L (zitems ms) (kl_view L st0) (zo_sink _ _ _ _ out').
Proof.
  intros HA Hi Hd Hrun Hin I1 Hframe Hcur Hio Hout Hres.
  destruct (all_good A C fuel0 pol ms (za_ok _ _ _ _ _ _ HA)) as (B & HB).
  destruct (zrun_ok A C fuel0 pol ms L st0 mem SV B HA Hi HB _ _ _ _ _ Hrun) as (earlier & [_ _ _ _ R _ _ _ _ _] & _).
  rewrite Forall_forall in R. specialize (R _ Hin).
  destruct R as (m & k & w & sc & R1 & R2 & R3 & R4 & R5 & R6 & R7 & R8 & (R9 & (S1 & S2 & S3) & R11) & R12).
  set (j := cidx C fuel0 c1) in *.
  assert (Hkind : en_kind (zm_entry m) = EkFile) by (eapply via_kind; exact R2).
  assert (Hit : nth_error (zitems ms) j = Some (zm_entry m, NFile (zm_data m))).
  { unfold zitems. rewrite nth_error_map, R1. cbn. unfold zm_item, zm_node. rewrite Hkind. reflexivity. }
  assert (Hof : kl_of L (set_woff (zm_entry m) (Z.of_nat w)) = kl_of L (zm_entry m)) by apply kl_of_woff.
  assert (Hother : forall l', kl_of L (zm_entry m) <> Some l' -> kl_view L st1 l' = kl_view L s l').
  { intros l' Hl'. apply Hframe. intros e He. rewrite R3 in He. injection He as <-. rewrite Hof. exact Hl'. }
  assert (Hthis : forall l', kl_of L (zm_entry m) = Some l' -> exists ct ct', kl_view L s l' = Some (NFile ct) /\ kl_view L st1 l' = Some (NFile (ct ++ ct'))).
  { intros l' Hl'. destruct (R12 l' Hl') as (s0 & wr & I0 & O0 & Hsync).
    destruct (kl_sync _ L _ _ _ _ _ _ I0 O0 Hsync) as (I2 & O1 & _ & _).
    destruct (kl_open_file _ L _ _ _ _ I2 O1) as (ct & Hct & _).
    pose proof (Hd _ _ _ _ _ I0 O0 Hsync) as Hdur. rewrite Hct in Hdur.
    destruct (Hcur _ l' ct R3 ltac:(rewrite Hof; exact Hl') Hdur) as (ct' & H'). exists ct, ct'. auto. }
  pose proof (za_items A C fuel0 pol ms L HA) as Hv.
  assert (Hnl : forall l', kl_of L (zm_entry m) = Some l' -> forall i e nd, (i < j)%nat -> nth_error (zitems ms) i = Some (e, nd) -> kl_of L e = Some l' -> ~ is_last L (zitems ms) i l').
  { intros l' Hl' i e nd Hij Hn Ho Hlast. exact (Hlast j _ Hij Hit Hl'). }
  assert (Hdec : forall l', kl_of L (zm_entry m) = Some l' \/ kl_of L (zm_entry m) <> Some l').
  { intros l'. destruct (kl_of L (zm_entry m)) as [l1|]; [|right; discriminate]. destruct (kl_dec L l1 l'); [left|right]; congruence. }
  assert (Hout1 : outside L (zitems ms) (kl_view L st0) st1).
  { intros l' H1 H2. destruct (Hdec l') as [Hl'|Hl'].
    - exfalso. apply H1. exists (zm_entry m, NFile (zm_data m)). split; [eapply nth_error_In; exact Hit|exact Hl'].
    - rewrite Hother by exact Hl'. apply S3; assumption. }
  assert (Hg : zgood A C fuel0 pol ms SK L (kl_view L st0) B st1 c1).
  { split; [exact R9|]. split; [split; [|split]|].
    - intros i e nd l' Hij Hn Ho Hlast. destruct (Hdec l') as [Hl'|Hl'].
      + exfalso. exact (Hnl l' Hl' i e nd Hij Hn Ho Hlast).
      + rewrite Hother by exact Hl'. eapply S1; eauto.
    - intros i e nd l1 l' Hij Hn Ho Ha. destruct (Hdec l') as [Hl'|Hl'].
      + exfalso. pose proof (kl_anc_dir _ L e (zm_entry m) l1 l') as Hanc.
        rewrite Hanc in Hkind; try assumption; [discriminate| |].
        * apply (proj1 Hv (e, nd)). eapply nth_error_In; exact Hn.
        * apply (proj1 Hv (zm_entry m, NFile (zm_data m))). eapply nth_error_In; exact Hit.
      + rewrite Hother by exact Hl'. eapply S2; eauto.
    - exact Hout1.
    - intros e D l' Hn Ho Hlast Hw. fold j in Hn, Hlast. rewrite Hit in Hn. injection Hn as <- <-.
      destruct (R11 _ _ l' Hit Ho Hlast Hw) as (ct & E1 & E2 & E3).
      destruct (Hthis l' Ho) as (ct1 & ct2 & E4 & E5). rewrite E4 in E1. injection E1 as ->.
      exists (ct ++ ct2). rewrite E5, app_length. splits; auto; [lia|]. rewrite firstn_app.
      replace (ckw C fuel0 ms c1 - length ct)%nat with 0%nat by lia. cbn. rewrite app_nil_r. exact E3. }
  destruct (zip_resume_ok A C fuel0 pol ms SK L SV' (kl_view L st0) B Hv HB (Some c1) [] io' fuel' st1 v' out' Hio I1 Hout1) as [[_ _ _ _ _ _ _ R' _] _]; auto.
  - split; [constructor; [exact Hg|constructor]|]. constructor; constructor.
  - rewrite Hres in R'. destruct R' as (_ & R' & _). apply settled_extracted. unfold zitems. rewrite map_length. exact R'.
Qed.
