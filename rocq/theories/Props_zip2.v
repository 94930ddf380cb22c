(** Props_zip2.v -- properties C38-C43 of the zip extractor (see Props_zip.v). *)
From Verif Require Import Base Base_proofs Source Seek Decomp CodecSpec Drive Copier Sink Zip SinkSpec NoteSpec ZipSpec
  Settle_proofs Zip_proofs Zip2_proofs Zip3_proofs Order_proofs Path PathSpec Path_proofs ExCodec ExSink ExZip.
From Coq Require Import Sorted QArith.
Open Scope Z_scope.

(** C38. Whatever the sink, the archive reader, the checkpoint and the save
    consumer do: the entries handed to the sink are the first n of those still to be
    done ([idx]: where the checkpoint says to begin), none of these is encrypted,
    all other calls come before the first of them and only preallocate, or write to
    their writers; and Resume succeeds only if none of the rest is encrypted. *)
Theorem C38_encrypted_never_written SK C fuel0 SV files io fuel c s v out :
  (forall ck e n, c = Some ck -> ec_entry ck = Some e -> en_kind e <> EkOther n) ->
  out = zip_resume (noted SK) C fuel0 SV files io fuel c (s, []) v ->
  let idx := Z.to_nat (match c with Some ck => ec_index ck | None => 0 end) in
  exists n pre t, snd (zo_sink _ _ _ _ out) = pre ++ t /\ Forall only_prealloc pre /\
    Forall (fun v => only_data v \/ handed_one v <> []) t /\ match t with v :: _ => handed_one v <> [] | [] => True end /\
    (length (handed_entries t) <= n)%nat /\
    (forall j zf, (j < n)%nat -> nth_error files (idx + j) = Some zf -> Z.odd (zf_flags zf) = false) /\
    (forall l, zo_res _ _ _ _ out = Ok l -> forall zf, In zf (skipn idx files) -> Z.odd (zf_flags zf) = false).
Proof.
  intros Hk Hout idx.
  destruct (resume_order SK C fuel0 SV files io fuel c s v out Hk Hout) as (pre & t & n & H1 & H2 & H3 & H4 & H5 & H6 & H7).
  exists n, pre, t. splits; auto.
  - assert (Hh : handed_entries (snd (zo_sink _ _ _ _ out)) = handed_entries t).
    { rewrite H1. unfold handed_entries. rewrite flat_map_app. replace (flat_map handed_one pre) with (@nil entry); [reflexivity|].
      clear -H2. induction H2 as [|x l Hx _ IH]; [reflexivity|]. cbn. rewrite <- IH. destruct x; try contradiction; reflexivity. }
    rewrite <- Hh, H5, firstn_length. lia.
  - intros l Hl zf Hin. destruct (H7 l Hl) as [Hn _]. destruct (In_nth_error _ _ Hin) as (j & Hj).
    apply (H6 j zf).
    + rewrite Hn. apply nth_error_Some. fold idx. congruence.
    + fold idx. rewrite <- Hj. clear. revert files. induction idx as [|i IH]; intros files; [reflexivity|].
      destruct files; cbn; [destruct j; reflexivity|apply IH].
Qed.

(** ... and if nothing else goes wrong, ErrEncrypted is the result. *)
Theorem C38_encrypted_refused A C fuel0 pol SK (L : sink_laws SK) ms :
  zarchive A C fuel0 pol L ms -> Forall (zsound C fuel0 L) ms ->
  exists B, forall st0 SV c io fuel st out,
    kl_inv L st0 -> zrun A C fuel0 pol ms L st0 false SV c io fuel st out ->
    kl_clean L st -> (forall i, io_good (io i)) -> saver_goes_on SV -> (B < fuel)%nat ->
    existsb zencrypted (skipn (Z.to_nat (match c with Some ck => ec_index ck | None => 0 end)) ms) = true ->
    zo_res _ _ _ _ out = Err EEncrypted.
Proof.
  intros HA Hs. destruct (all_good A C fuel0 pol ms (za_ok _ _ _ _ _ _ HA)) as (B & HB). exists B.
  intros st0 SV c io fuel st out Hi Hrun Hc Hg Hsv Hf He.
  destruct (zrun_ok A C fuel0 pol ms L st0 false SV B HA Hi HB _ _ _ _ _ Hrun) as (earlier & _ & Ht & _ & _ & Hlive).
  assert (He' : existsb enc (skipn (fst (start_of C fuel0 ms c)) ms) = true).
  { destruct c; exact He. }
  rewrite He' in Hlive. apply (Hlive Hsv); [|exact Hc]. split.
  - split; [exact (goes_on_noerr _ Hsv)|]. split; [exact Hf|].
    intros i m _ Hn _. rewrite Forall_forall in Hs. destruct (Hs m (nth_error_In _ _ Hn)) as [S1 S2]. splits; auto.
  - specialize (Ht eq_refl). destruct c; [exact (proj1 Ht)|exact Logic.I].
Qed.

(** An archive with an encrypted member between two others. *)
Definition ex_enc_ms : list zmember := [ex_m1; MkZm (MkZf (s2b "e") 5 5 0 1 0) 0 (s2b "hello") EEof; ex_m2].
Definition ex_enc_io : nat -> zio := fun i => ex_io 1.
Definition ex_enc_out := zip_resume (noted map_sink) exC exF nop_saver (zfiles ex_enc_ms) ex_enc_io 50 None (map_empty, []) tt.
Example C38_example :
  existsb zencrypted ex_enc_ms = true /\ zo_res _ _ _ _ ex_enc_out = Err EEncrypted /\
  handed_entries (snd (zo_sink _ _ _ _ ex_enc_out)) = [zm_entry ex_m1].
Proof. splits; vm_compute; reflexivity. Qed.

(** C39. [reader_ok]: zip.NewReader reports ErrInsecurePath if some non-empty name
    is not local or contains a backslash. [safe]: relative, and walking along
    the name never ends up above the starting point. *)
Definition safe (p : bytes) : Prop :=
  is_abs p = false /\ ~ In backslash p /\ forall b, at_or_below b (walk b (split_slash p)).
Definition reader_ok (files : list zfile) (nerr : option gerr) : Prop :=
  nerr = None -> Forall (fun f => zf_name f = [] \/ safe (zf_name f)) files.
Definition with_name (f : zfile) (n : bytes) : zfile := MkZf n (zf_csize f) (zf_usize f) (zf_mode f) (zf_flags f) (zf_method f).

Lemma replace_no_backslash s : ~ In backslash (replace_backslashes s).
Proof.
  unfold replace_backslashes. intros H. apply in_map_iff in H. destruct H as (x & H & _).
  destruct (beqb x backslash) eqn:E; [discriminate|]. subst x. vm_compute in E. discriminate E.
Qed.
Lemma is_local_not_abs p : is_local p = true -> is_abs p = false.
Proof. unfold is_local. destruct (is_abs p); [discriminate|reflexivity]. Qed.

Theorem C39_normalized_names_safe files nerr fs sup :
  reader_ok files nerr -> zip_new files nerr true = Ok (fs, sup) ->
  Forall2 (fun f f' => (zf_name f' = [] \/ safe (zf_name f')) /\ (f' = f \/ f' = with_name f (replace_backslashes (zf_name f)))) files fs.
Proof.
  intros Hr. unfold zip_new. destruct nerr as [e|].
  - cbn [andb]. destruct (gerr_eqb e EInsecure); [|discriminate].
    destruct (zip_normalize files) as [fs'| | |] eqn:Hn; try discriminate. injection 1 as <- _. clear Hr.
    revert fs' Hn. induction files as [|f files IH]; intros fs' Hn; cbn [zip_normalize] in Hn.
    + injection Hn as <-. constructor.
    + destruct (zf_name f) as [|b bs] eqn:Hf.
      * destruct (zip_normalize files) as [l| | |]; try discriminate. injection Hn as <-.
        constructor; [|apply IH; reflexivity]. rewrite Hf. auto.
      * rewrite <- Hf in Hn. destruct (is_local (replace_backslashes (zf_name f))) eqn:Hl; [|discriminate].
        destruct (zip_normalize files) as [l| | |]; try discriminate. injection Hn as <-.
        constructor; [|apply IH; reflexivity]. split; [right|right; rewrite Hf; reflexivity].
        cbn [zf_name]. split; [apply is_local_not_abs; exact Hl|]. split; [apply replace_no_backslash|].
        intros b0. apply is_local_inside. exact Hl.
  - injection 1 as <- _. specialize (Hr eq_refl). induction Hr as [|f l Hf _ IH]; constructor; auto.
Qed.

(** A name that can lead above some directory (or is absolute) even with slashes
    for backslashes makes it fail; without NormalizeBackslashes every insecure name
    does; other errors are passed on. *)
Theorem C39_unsafe_rejected files nerr normalize :
  (exists f, In f files /\ zf_name f <> [] /\
     (is_abs (replace_backslashes (zf_name f)) = true \/
      exists b, ~ at_or_below b (walk b (split_slash (replace_backslashes (zf_name f)))))) ->
  nerr = Some EInsecure -> zip_new files nerr normalize = Err EInsecure.
Proof.
  intros (f & Hin & Hne & Hbad) ->. unfold zip_new. cbn [gerr_eqb].
  assert (Hl : is_local (replace_backslashes (zf_name f)) = false).
  { destruct (is_local _) eqn:E; [|reflexivity]. exfalso. destruct Hbad as [Hb|(b & Hb)].
    - rewrite (is_local_not_abs _ E) in Hb. discriminate.
    - apply Hb. apply is_local_inside. exact E. }
  destruct normalize; [|reflexivity]. cbn [andb].
  assert (Hn : zip_normalize files = Err EInsecure).
  { induction files as [|g files IH]; [destruct Hin|]. cbn [zip_normalize].
    destruct Hin as [->|Hin].
    - destruct (zf_name f) eqn:Hf; [congruence|]. rewrite Hl. reflexivity.
    - rewrite (IH Hin). destruct (zf_name g) as [|b bs]; [reflexivity|]. destruct (is_local (replace_backslashes (b :: bs))); reflexivity. }
  rewrite Hn. reflexivity.
Qed.

(** Accepted names are never a path traversal for a FolderSink (whose Directory
    is not the root directory), which puts them at or below Directory. *)
Theorem C39_accepted_by_folder_sink wd dir p :
  is_abs wd = true -> base_loc wd dir <> [] -> p = [] \/ safe p ->
  exists rest, dest_path wd dir p = Ok (render (base_loc wd dir ++ rest)).
Proof.
  intros Hwd Hb Hp. rewrite (dest_path_spec wd dir p Hwd Hb). cbv zeta.
  assert (Hat : at_or_below (base_loc wd dir) (walk (base_loc wd dir) (split_slash p))).
  { destruct Hp as [->|(_ & _ & H)]; [exists []; rewrite app_nil_r; reflexivity|apply H]. }
  rewrite (proj2 (at_or_belowb_spec _ _) Hat). destruct Hat as (rest & ->). eauto.
Qed.

Example C39_example :
  zip_new [MkZf (s2b "dir\file") 0 0 0 0 0; MkZf [] 0 0 0 0 0] (Some EInsecure) true =
    Ok ([MkZf (s2b "dir/file") 0 0 0 0 0; MkZf [] 0 0 0 0 0], RsBlock) /\
  zip_new [MkZf (s2b "a\..\..\x") 0 0 0 0 0] (Some EInsecure) true = Err EInsecure /\
  dest_path (s2b "/w") (s2b "out") (s2b "dir/file") = Ok (s2b "/w/out/dir/file").
Proof. splits; vm_compute; reflexivity. Qed.

(** C40. Whatever the sink and the history: a successful Resume returns what
    Entries() returns, and this lists the members in order, with their names,
    sizes and kinds. *)
Theorem C40_result_lists_archive SK C fuel0 SV files io fuel c s v l :
  zo_res _ _ _ _ (zip_resume SK C fuel0 SV files io fuel c s v) = Ok l ->
  l = zlisting files /\ length l = length files /\
  forall i f, nth_error files i = Some f -> exists e, nth_error l i = Some e /\
    en_path e = zf_name f /\
    (zf_usize f < two63 -> 0 <= zf_usize f -> en_usize e = zf_usize f) /\
    (zf_csize f < two63 -> 0 <= zf_csize f -> en_csize e = zf_csize f) /\
    en_mode e = zf_mode f /\ en_woff e = 0 /\
    (Z.testbit (zf_mode f) 31 = true -> en_kind e = EkDir) /\
    (Z.testbit (zf_mode f) 31 = false -> Z.testbit (zf_mode f) 27 = true -> en_kind e = EkSymlink) /\
    (Z.testbit (zf_mode f) 31 = false -> Z.testbit (zf_mode f) 27 = false -> en_kind e = EkFile).
Proof.
  intros H. assert (Hl : l = zip_entries files).
  { unfold zip_resume in H. cbv zeta in H.
    match type of H with zo_res _ _ _ _ (match ?p with _ => _ end) = _ => destruct p as [s1 perr] end.
    destruct perr; [discriminate|]. destruct (_ <? 0); [discriminate|].
    match type of H with context [zip_loop ?a ?b ?c ?d ?e ?f ?g ?h ?i ?j ?k] => destruct (zip_loop a b c d e f g h i j k) as [x r] end.
    cbn [zo_res] in H. destruct r; try discriminate. destruct (x_stoperr _ _ _ _ x); [discriminate|]. injection H as <-. reflexivity. }
  subst l. split; [reflexivity|]. split; [apply map_length|].
  intros i f Hf. exists (zip_entry_of f). unfold zip_entries. rewrite nth_error_map, Hf. split; [reflexivity|].
  unfold zip_entry_of, mode_dir_bit, mode_symlink_bit. cbn [en_path en_usize en_csize en_mode en_woff en_kind].
  splits; auto.
  - intros. apply wrap64_id. unfold is_int64, two63 in *. lia.
  - intros. apply wrap64_id. unfold is_int64, two63 in *. lia.
  - intros ->. reflexivity.
  - intros -> ->. reflexivity.
  - intros -> ->. reflexivity.
Qed.

Example C40_example : zo_res _ _ _ _ ex_second = Ok (zlisting (zfiles ex_ms)) /\
  map en_kind (zlisting (zfiles ex_ms)) = [EkDir; EkFile; EkFile; EkFile; EkSymlink].
Proof. split; vm_compute; reflexivity. Qed.

(** C41. *)
Theorem C41_support files nerr normalize fs sup :
  zip_new files nerr normalize = Ok (fs, sup) ->
  (sup = RsBlock <-> forall f, In f fs -> zf_method f <> 14) /\ (sup = RsBlock \/ sup = RsEntry).
Proof.
  assert (Hf : forall l s0, s0 = RsBlock \/ s0 = RsEntry ->
     let s := fold_left (fun s f => if zf_method f =? zip_lzma then RsEntry else s) l s0 in
     (s = RsBlock <-> s0 = RsBlock /\ forall f, In f l -> zf_method f <> 14) /\ (s = RsBlock \/ s = RsEntry)).
  { induction l as [|f l IH]; intros s0 Hs; cbn [fold_left].
    - cbv zeta. split; [|exact Hs]. split; [|tauto]. intros ->. split; [reflexivity|]. intros f [].
    - cbv zeta. destruct (zf_method f =? zip_lzma) eqn:E.
      + destruct (IH RsEntry (or_intror eq_refl)) as [I1 I2]. split; [|exact I2]. rewrite I1. split; [intros [? _]; discriminate|].
        intros [_ H]. exfalso. apply (H f (or_introl eq_refl)). unfold zip_lzma in E. lia.
      + destruct (IH s0 Hs) as [I1 I2]. split; [|exact I2]. rewrite I1. split.
        * intros [-> H]. split; [reflexivity|]. intros g [<-|Hg]; [unfold zip_lzma in E; lia|auto].
        * intros [-> H]. split; [reflexivity|]. intros g Hg. apply H. right. exact Hg. }
  unfold zip_new. intros H.
  assert (Hs : sup = zip_support fs).
  { destruct nerr as [e|]; [|injection H as <- <-; reflexivity].
    destruct (normalize && gerr_eqb e EInsecure); [|discriminate].
    destruct (zip_normalize files); try discriminate. injection H as <- <-. reflexivity. }
  subst sup. destruct (Hf fs RsBlock (or_introl eq_refl)) as [H1 H2]. split; [|exact H2].
  unfold zip_support. rewrite H1. tauto.
Qed.

(** Checkpoints are only emitted for stored and deflated files, which can be
    resumed (C35); in particular never in the middle of an LZMA member. *)
Theorem C41_no_checkpoint_in_lzma A C fuel0 pol SK (L : sink_laws SK) ms st0 mem SV c io fuel st out c1 s :
  zarchive A C fuel0 pol L ms -> kl_inv L st0 -> zrun A C fuel0 pol ms L st0 mem SV c io fuel st out ->
  In (c1, s) (zo_log _ _ _ _ out) ->
  exists m, nth_error ms (Z.to_nat (ec_index c1)) = Some m /\ (zf_method (zm_file m) = 0 \/ zf_method (zm_file m) = 8) /\ ec_src c1 <> None.
Proof.
  intros HA Hi Hrun Hin.
  destruct (all_good A C fuel0 pol ms (za_ok _ _ _ _ _ _ HA)) as (B & HB).
  destruct (zrun_ok A C fuel0 pol ms L st0 mem SV B HA Hi HB _ _ _ _ _ Hrun) as (earlier & [_ _ _ _ R _ _ _ _ _] & _).
  rewrite Forall_forall in R. specialize (R _ Hin).
  destruct R as (m & k & w & sc & R1 & R2 & R3 & R4 & _). exists m. splits; auto; [|congruence].
  unfold zm_via in R2. destruct (en_kind (zm_entry m)); try discriminate.
  destruct (zf_method (zm_file m) =? zip_store) eqn:E1; [unfold zip_store in E1; lia|].
  destruct (zf_method (zm_file m) =? zip_deflate) eqn:E2; [unfold zip_deflate in E2; lia|discriminate].
Qed.

Example C41_example : zip_support (zfiles ex_ms) = RsEntry /\ zip_support (zfiles [ex_m1; ex_m2]) = RsBlock /\
  map (fun cs => ec_index (fst cs)) (zo_log _ _ _ _ ex_first) = [2].
Proof. splits; vm_compute; reflexivity. Qed.

(** C42. Every reported progress value is a fraction in [0,1], they do not
    decrease, and none is below the progress stored in the checkpoint that the run
    was started from. [honest]: declared sizes are at least the real ones. *)
Theorem C42_zip_progress A C fuel0 pol SK (L : sink_laws SK) ms st0 SV c io fuel st out :
  zarchive A C fuel0 pol L ms -> kl_inv L st0 -> zrun A C fuel0 pol ms L st0 false SV c io fuel st out ->
  Forall honest ms -> 0 < total ms < two63 ->
  exists qs, zo_prog _ _ _ _ out = map Some qs /\ Forall (fun q => 0 <= q /\ q <= 1)%Q qs /\ StronglySorted Qle qs /\
    match c with Some ck => exists q0, ec_prog ck = Some q0 /\ (0 <= q0)%Q /\ Forall (Qle q0) qs | None => True end.
Proof.
  intros HA Hi Hrun Hh Ht.
  destruct (all_good A C fuel0 pol ms (za_ok _ _ _ _ _ _ HA)) as (B & HB).
  destruct (zrun_ok A C fuel0 pol ms L st0 false SV B HA Hi HB _ _ _ _ _ Hrun) as (earlier & [_ _ _ _ _ R _ _ _ _] & Hck & _).
  destruct R as (ps & P1 & P2 & P3). specialize (Hck eq_refl).
  destruct (total ms) as [|p|p] eqn:Ep; try lia.
  exists (map (fun q => (pval ms q # p)%Q) ps).
  assert (Hv : forall q, inbounds ms q -> frac ms q = Some (pval ms q # p)%Q).
  { intros q Hq. destruct (frac_val ms Hh ltac:(lia) q Hq) as (p' & E1 & E2). rewrite Ep in E1. injection E1 as <-. exact E2. }
  splits.
  - rewrite P1, map_map. apply map_ext_in. intros q Hq. rewrite Forall_forall in P3. apply Hv. apply P3. exact Hq.
  - apply Forall_map. eapply Forall_impl; [|exact P3]. intros q [_ Hq]. pose proof (pval_bounds ms Hh q Hq) as Hb.
    rewrite Ep in Hb. unfold Qle. cbn. lia.
  - clear P1. induction P2 as [|q ps P2 IH P4]; cbn [map]; [constructor|].
    inversion P3 as [|? ? [_ Q1] Q2]; subst. constructor; [auto|]. apply Forall_map.
    rewrite Forall_forall in P4 |- *. intros q' Hq'. pose proof (pval_mono ms Hh q q' Q1 (P4 q' Hq')). unfold Qle. cbn [Qnum Qden]. apply Z.mul_le_mono_nonneg_r; lia.
  - destruct c as [ck|]; [|exact Logic.I]. destruct Hck as (_ & H1 & H2 & _).
    exists (pval ms (cpos C fuel0 ms ck) # p)%Q. rewrite H1. split; [apply Hv; exact H2|]. split.
    + pose proof (pval_bounds ms Hh _ H2). unfold Qle. cbn. lia.
    + apply Forall_map. eapply Forall_impl; [|exact P3]. intros q [Q1 _]. cbn [start_of] in Q1.
      pose proof (pval_mono ms Hh _ q H2 Q1). unfold Qle. cbn [Qnum Qden]. apply Z.mul_le_mono_nonneg_r; lia.
Qed.

(** Progress stored in checkpoints is in range, too. *)
Example C42_example : Forall honest ex_ms /\ 0 < total ex_ms < two63 /\
  map (fun cs => ec_prog (fst cs)) (zo_log _ _ _ _ ex_first) = [Some (9 # 13)%Q].
Proof.
  split; [|split; [split; reflexivity|vm_compute; reflexivity]].
  unfold ex_ms. apply Forall_forall. intros m Hm. unfold honest, two63.
  destruct Hm as [<-|[<-|[<-|[<-|[<-|[]]]]]]; cbn [zm_data zm_file zf_usize ex_m0 ex_m1 ex_m2 ex_m3 ex_m4];
    split; vm_compute; congruence.
Qed.

(** C43. Also with the checkpoint object that a failed (not stopped) Resume has
    modified, any number of times and mixed with saved checkpoints: a run that
    ends without error leaves exactly the archive. *)
Theorem C43_zip_retry_same_object A C fuel0 pol SK (L : sink_laws SK) ms st0 SV c io fuel st out l :
  zarchive A C fuel0 pol L ms -> kl_inv L st0 ->
  zrun A C fuel0 pol ms L st0 true SV c io fuel st out -> zo_res _ _ _ _ out = Ok l ->
  extracted L (zitems ms) (kl_view L st0) (zo_sink _ _ _ _ out) /\ l = zlisting (zfiles ms).
Proof.
  intros HA Hi Hrun Hres. destruct (zrun_extracted A C fuel0 pol ms L st0 true SV HA Hi _ _ _ _ _ _ Hrun Hres) as (H1 & H2 & _). auto.
Qed.

(** Spelled out for one retry, right after the failure. *)
Theorem C43_zip_one_retry A C fuel0 pol SK (L : sink_laws SK) ms st0 SV c io fuel st out e c' SV' io' fuel' v' out' l :
  zarchive A C fuel0 pol L ms -> kl_inv L st0 ->
  zrun A C fuel0 pol ms L st0 true SV (Some c) io fuel st out ->
  zo_res _ _ _ _ out = Err e -> zo_ck _ _ _ _ out = Some c' ->
  ios_ok A pol ms io' ->
  out' = zip_resume SK C fuel0 SV' (zfiles ms) io' fuel' (Some c') (zo_sink _ _ _ _ out) v' -> zo_res _ _ _ _ out' = Ok l ->
  extracted L (zitems ms) (kl_view L st0) (zo_sink _ _ _ _ out').
Proof.
  intros HA Hi Hrun Herr Hc' Hio Hout' Hres.
  destruct (all_good A C fuel0 pol ms (za_ok _ _ _ _ _ _ HA)) as (B & HB).
  destruct (zrun_ok A C fuel0 pol ms L st0 true SV B HA Hi HB _ _ _ _ _ Hrun) as (earlier & [R1 R2 _ _ _ _ _ _ R3 _] & _).
  destruct (R3 c' Hc') as [Hg _].
  destruct (zip_resume_ok A C fuel0 pol ms SK L SV' (kl_view L st0) B (za_items A C fuel0 pol ms L HA) HB (Some c') [] io' fuel' _ v' out' Hio R1 R2) as [[_ _ _ _ _ _ _ R' _] _]; auto.
  - split; [constructor; [exact Hg|constructor]|]. constructor; constructor.
  - rewrite Hres in R'. destruct R' as (_ & R' & _). apply settled_extracted. unfold zitems. rewrite map_length. exact R'.
Qed.

(** Not vacuous: the sink dies after 3 more operations of a resumed run. *)
Definition ex_failed := zip_resume (crashing map_sink) exC exF nop_saver (zfiles ex_ms) ex_io 50 ex_ck (fst (zo_sink _ _ _ _ ex_first0), Some 3%nat) tt.
Definition ex_retry := zip_resume map_sink exC exF nop_saver (zfiles ex_ms) ex_io 50 (zo_ck _ _ _ _ ex_failed) (fst (zo_sink _ _ _ _ ex_failed)) tt.
Example C43_example :
  zo_res _ _ _ _ ex_failed = Err EIO /\
  option_map (fun c => (ec_index c, ck_woff exC exF c)) (zo_ck _ _ _ _ ex_failed) = Some (3, 0) /\
  zo_res _ _ _ _ ex_retry = Ok (zlisting (zfiles ex_ms)) /\
  ms_view (zo_sink _ _ _ _ ex_retry) (s2b "b") = Some (NFile (s2b "aabbcc")).
Proof. splits; vm_compute; reflexivity. Qed.
