(** Props_tar.v -- properties C44-C49, C57, C58 of the tar extractor.
    [tarchive pol data start size k D tm F N ms ok L]: the section [start, start+size) of [data],
    read through the stack [k] of sources, yields the bytes D and then tm; these
    contain the members ms, and end properly iff ok (TarSpec.v); the sink obeys L.
    [trun ... st0 ms SV c rs fuel st out]: out is the outcome of a call of
    Resume with checkpoint c at any point of a life [tlife] of interrupted, failed and
    killed earlier runs, that began with the sink in state st0. *)
From Verif Require Import Base Base_proofs Source Contract Seek Decomp CodecSpec Drive SpoilSpec Stack_proofs Copier Sink SinkSpec NoteSpec Zip ZipSpec
  Settle_proofs Zip2_proofs Zip3_proofs Tar TarSpec TarRead_proofs Tar_proofs Tar2_proofs TarOrder_proofs ExCodec ExSink ExTar.
From Coq Require Import QArith.
Open Scope Z_scope.

Section Props.
  Context (pol : bool) (data : bytes) (start size : Z) (k : stk) (D : bytes) (tm : gerr) (F : tfmt) (N : nat).
  Context (ms : list tmember) (ok : bool) (SK : sink) (L : sink_laws SK).
  Notation S := (stk_source k).
  Notation trun := (trun pol data start size k F L).
  Notation tlife := (tlife pol data start size k F L).
  Context (HA : tarchive pol data start size k D tm F N ms ok L).

  (** C45. A run from any checkpoint that ends without error leaves the sink with
      exactly the archive, compared to the state before the very first run; the
      archive ended properly and no data was missing. *)
  Theorem C45_tar_resume_exact st0 SV c rs fuel st out l : kl_inv L st0 ->
    trun st0 ms SV c rs fuel st out -> to_res _ _ _ out = Ok l ->
    extracted L (titems ms) (kl_view L st0) (to_sink _ _ _ out) /\ ok = true.
  Proof.
    intros Hi Hrun Hres. destruct (trun_archive _ _ _ _ _ _ _ _ _ _ _ _ HA) as (LL & B & H).
    destruct (H st0 Hi SV c rs fuel st out Hrun) as (prior & q0 & [_ _ _ _ _ _ _ R _] & _). rewrite Hres in R.
    destruct R as (R1 & R2 & _). split; [apply settled_extracted; exact R1|exact R2].
  Qed.

  (** ... and such a run does end without error if nothing fails any more. *)
  Theorem C45_tar_resume_completes : tm = EEof -> ok = true -> tsound L ms ->
    exists B, forall st0 SV c rs fuel st out, kl_inv L st0 -> trun st0 ms SV c rs fuel st out ->
      kl_clean L st -> rs_good rs -> saver_goes_on SV -> (B < fuel)%nat ->
      exists l, to_res _ _ _ out = Ok l /\ extracted L (titems ms) (kl_view L st0) (to_sink _ _ _ out).
  Proof.
    intros Ht Hok Hs. destruct (trun_archive _ _ _ _ _ _ _ _ _ _ _ _ HA) as (LL & B & H). exists B.
    intros st0 SV c rs fuel st out Hi Hrun Hc Hg Hsv Hf.
    destruct (H st0 Hi SV c rs fuel st out Hrun) as (prior & q0 & _ & HL).
    destruct (HL Hg Hc Hsv Ht Hok Hs Hf) as [(l & Hl) _]. exists l. split; [exact Hl|].
    eapply proj1, C45_tar_resume_exact; eauto.
  Qed.

  (** C44. In particular: Resume(nil). *)
  Theorem C44_tar_exact SV st rs fuel v out l : kl_inv L st -> rs_ok pol data rs ->
    out = tar_resume SK F S SV (tsrc start size k rs) fuel None st v -> to_res _ _ _ out = Ok l ->
    extracted L (titems ms) (kl_view L st) (to_sink _ _ _ out) /\ ok = true.
  Proof.
    intros Hi Hr Hout Hres. eapply C45_tar_resume_exact; [exact Hi| |exact Hres].
    eapply TrFresh; [apply TfStart|exact Hr|left; reflexivity|exact Hout].
  Qed.
  Theorem C44_tar_completes : tm = EEof -> ok = true -> tsound L ms ->
    exists B, forall SV st rs fuel v out, kl_inv L st -> kl_clean L st -> rs_ok pol data rs -> rs_good rs -> saver_goes_on SV -> (B < fuel)%nat ->
      out = tar_resume SK F S SV (tsrc start size k rs) fuel None st v ->
      exists l, to_res _ _ _ out = Ok l /\ extracted L (titems ms) (kl_view L st) (to_sink _ _ _ out).
  Proof.
    intros Ht Hok Hs. destruct (C45_tar_resume_completes Ht Hok Hs) as (B & H). exists B.
    intros SV st rs fuel v out Hi Hc Hr Hg Hsv Hf Hout. eapply H; eauto.
    eapply TrFresh; [apply TfStart|exact Hr|left; reflexivity|exact Hout].
  Qed.

  (** C46. What holds: the result lists the regular files, in order, each
      with the number of bytes written, whatever the interruptions. *)
  Theorem C46_tar_result_partial st0 SV c rs fuel st out l : kl_inv L st0 ->
    trun st0 ms SV c rs fuel st out -> to_res _ _ _ out = Ok l -> l = tfiles L ms.
  Proof.
    intros Hi Hrun Hres. destruct (trun_archive _ _ _ _ _ _ _ _ _ _ _ _ HA) as (LL & B & H).
    destruct (H st0 Hi SV c rs fuel st out Hrun) as (prior & q0 & [_ _ _ _ _ _ _ R _] & _). rewrite Hres in R. tauto.
  Qed.

  (** C49. The checkpoints given to Save: the index and entry of the file being
      extracted, with the WriteOffset w; the tar reader is w bytes into the data
      of that file (unless the sink ignores the file), of which exactly the first
      w bytes have been written; and the source is at the same position. *)
  Theorem C49_tar_checkpoint st0 SV c rs fuel st out c1 s : kl_inv L st0 ->
    trun st0 ms SV c rs fuel st out -> In (c1, s) (to_log _ _ _ out) ->
    exists i m e o w, ec_index c1 = Z.of_nat i /\ nth_error ms i = Some m /\ th_type (tm_hdr m) = TfReg /\ tm_entry m = Some e /\
      ec_entry c1 = Some (set_woff e (Z.of_nat w)) /\ (o <= length (tm_data m))%nat /\
      (forall lo, kl_of L e = Some lo -> w = o /\
         (is_last L (titems ms) (length (titems (firstn i ms))) lo -> (0 < w)%nat ->
          exists ct, kl_view L s lo = Some (NFile ct) /\ (w <= length ct)%nat /\ firstn w ct = firstn w (tm_data m))) /\
      (exists l r, ec_data c1 = Some (MkTs (Some l) (Some r)) /\ sr_off r = Z.of_nat (tm_pos m + o) /\ sr_nb r = (th_nb (tm_hdr m) - o)%nat /\
         l = tfiles L (firstn i ms)) /\
      (exists sc, ec_src c1 = Some sc /\ ck_off sc = Z.of_nat (tm_pos m + o)).
  Proof.
    intros Hi Hrun Hin. destruct (trun_archive _ _ _ _ _ _ _ _ _ _ _ _ HA) as (LL & B & H).
    destruct (H st0 Hi SV c rs fuel st out Hrun) as (prior & q0 & [_ _ _ _ R _ _ _ _] & _).
    rewrite Forall_forall in R. destruct (R _ Hin) as [((i & m & e & o & H1 & H2 & H3 & H4 & H5 & H6 & H7 & _) & _ & Hp) _ (sc & l0 & r0 & H8 & H9 & H10)].
    cbn [fst snd] in *.
    assert (Hps : cpos S ms c1 = (jx ms i, W SK L e o)).
    { unfold cpos, tck_woff. rewrite H5, H6, Nat2Z.id. cbn. rewrite Nat2Z.id. reflexivity. }
    rewrite Hps in Hp. cbn [fst snd] in Hp.
    exists i, m, e, o, (W SK L e o). splits; auto.
    - intros lo Hlo. split; [unfold W; rewrite Hlo; reflexivity|]. intros Hlast Hw.
      assert (Hit : nth_error (titems ms) (jx ms i) = Some (e, NFile (tm_data m))).
      { rewrite (item_at ms i m e H1 H3). unfold tm_node. rewrite H2. reflexivity. }
      destruct (Hp e (tm_data m) lo Hit Hlo Hlast Hw) as (ct & C1 & C2 & C3). eauto.
    - exists (tfiles L (firstn i ms)), (sr_in m o). splits; auto.
    - exists sc. split; [exact H8|]. rewrite H7 in H9. injection H9 as _ <-. exact H10.
  Qed.

  (** C58. Progress values, reported and stored, are fractions in [0,1]. *)
  Theorem C58_tar_progress st0 SV c rs fuel st out : kl_inv L st0 -> trun st0 ms SV c rs fuel st out ->
    Forall (fun q => 0 <= q <= 1)%Q (to_prog _ _ _ out) /\
    forall c1 s, In (c1, s) (to_log _ _ _ out) -> exists q, ec_prog c1 = Some q /\ (0 <= q <= 1)%Q.
  Proof.
    intros Hi Hrun. destruct (trun_archive _ _ _ _ _ _ _ _ _ _ _ _ HA) as (LL & B & H).
    destruct (H st0 Hi SV c rs fuel st out Hrun) as (prior & q0 & [_ _ _ _ R P _ _ _] & _). split; [exact P|].
    intros c1 s Hin. rewrite Forall_forall in R. exact (lo_prog _ _ _ _ _ _ _ _ _ _ (R _ Hin)).
  Qed.

  (** C47. What holds: a power loss is harmless if it spares everything but the
      file being extracted, and of this one the first WriteOffset bytes. (The extractor
      does nothing to make this true: C47_tar_never_syncs.) *)
  Theorem C47_tar_power_loss_partial st0 SV c rs fuel st out c1 s st1 SV' rs' fuel' v' out' l :
    kl_inv L st0 -> trun st0 ms SV c rs fuel st out -> In (c1, s) (to_log _ _ _ out) ->
    kl_inv L st1 ->
    (forall l', (forall e, ec_entry c1 = Some e -> kl_of L e <> Some l') -> kl_view L st1 l' = kl_view L s l') ->
    (forall e l' ct, ec_entry c1 = Some e -> kl_of L e = Some l' -> kl_view L s l' = Some (NFile ct) ->
       exists ct', kl_view L st1 l' = Some (NFile ct') /\ (Z.to_nat (en_woff e) <= length ct')%nat /\
         firstn (Z.to_nat (en_woff e)) ct' = firstn (Z.to_nat (en_woff e)) ct) ->
    rs_ok pol data rs' -> out' = tar_resume SK F S SV' (tsrc start size k rs') fuel' (Some c1) st1 v' -> to_res _ _ _ out' = Ok l ->
    extracted L (titems ms) (kl_view L st0) (to_sink _ _ _ out').
  Proof.
    intros Hi Hrun Hin I1 Hframe Hcur [Hr1 Hr2] Hout Hres.
    destruct (ta_laws _ _ _ _ _ _ _ _ _ _ _ _ HA) as (LL & Hlate & Hwf & _ & Hqt & HSp).
    pose proof (ta_items _ _ _ _ _ _ _ _ _ _ _ _ HA) as Hv.
    pose proof (ta_layout _ _ _ _ _ _ _ _ _ _ _ _ HA) as Hlay.
    destruct (trun_ok pol data start size k D tm F N ms ok L st0 LL Hwf Hqt HSp Hv Hlay Hlate Hi SV c rs fuel st out Hrun) as (prior & q0 & [_ _ _ _ R _ _ _ _] & _).
    rewrite Forall_forall in R. destruct (R _ Hin) as [(R9 & (S1 & S2 & S3) & R11) _ _]. cbn [fst snd] in *.
    pose proof R9 as (i & m & e & o & H1 & H2 & H3 & H4 & H5 & H6 & _).
    assert (Hps : cpos S ms c1 = (jx ms i, W SK L e o)).
    { unfold cpos, tck_woff. rewrite H5, H6, Nat2Z.id. cbn. rewrite Nat2Z.id. reflexivity. }
    rewrite Hps in *. cbn [fst snd] in *. set (j := jx ms i) in *.
    assert (Hit : nth_error (titems ms) j = Some (e, NFile (tm_data m))).
    { unfold j. rewrite (item_at ms i m e H1 H3). unfold tm_node. rewrite H2. reflexivity. }
    assert (Hkind : en_kind e = EkFile).
    { revert H3. unfold tm_entry, tar_entry_of. rewrite H2. intros [= <-]. reflexivity. }
    assert (Hof : kl_of L (set_woff e (Z.of_nat (W SK L e o))) = kl_of L e) by apply kl_of_woff.
    assert (Hother : forall l', kl_of L e <> Some l' -> kl_view L st1 l' = kl_view L s l').
    { intros l' Hl'. apply Hframe. intros e' He. rewrite H6 in He. injection He as <-. rewrite Hof. exact Hl'. }
    assert (Hdec : forall l', kl_of L e = Some l' \/ kl_of L e <> Some l').
    { intros l'. destruct (kl_of L e) as [l1|]; [|right; discriminate]. destruct (kl_dec L l1 l'); [left|right]; congruence. }
    assert (Hout1 : outside L (titems ms) (kl_view L st0) st1).
    { intros l' G1 G2. destruct (Hdec l') as [Hl'|Hl'].
      - exfalso. apply G1. exists (e, NFile (tm_data m)). split; [eapply nth_error_In; exact Hit|exact Hl'].
      - rewrite Hother by exact Hl'. apply S3; assumption. }
    assert (Hg : tgood S D tm LL (spoilt k) ms SK L (kl_view L st0) st1 c1).
    { split; [exact R9|]. rewrite Hps. cbn [fst snd]. split; [split; [|split]|].
      - intros i' e' nd l' Hij Hn Ho Hlast. destruct (Hdec l') as [Hl'|Hl'].
        + exfalso. exact (Hlast j _ Hij Hit Hl').
        + rewrite Hother by exact Hl'. eapply S1; eauto.
      - intros i' e' nd l1 l' Hij Hn Ho Ha. destruct (Hdec l') as [Hl'|Hl'].
        + exfalso. pose proof (kl_anc_dir _ L e' e l1 l') as Hanc.
          rewrite Hanc in Hkind; try assumption; [discriminate| |].
          * apply (proj1 Hv (e', nd)). eapply nth_error_In; exact Hn.
          * apply (proj1 Hv (e, NFile (tm_data m))). eapply nth_error_In; exact Hit.
        + rewrite Hother by exact Hl'. eapply S2; eauto.
      - exact Hout1.
      - intros e' D' l' Hn Ho Hlast Hw. rewrite Hit in Hn. injection Hn as <- <-.
        destruct (R11 _ _ l' Hit Ho Hlast Hw) as (ct & E1 & E2 & E3).
        destruct (Hcur _ l' ct H6 ltac:(rewrite Hof; exact Ho) E1) as (ct' & F1 & F2 & F3).
        cbn [en_woff set_woff] in F2, F3. rewrite Nat2Z.id in F2, F3.
        exists ct'. splits; auto. rewrite F3. exact E3. }
    destruct (resume_at S D tm LL (spoilt k) F N ok ms SK L SV' (kl_view L st0) [c1] (Z.of_nat (tmeas S c1)) Hv Hlay Hlate HSp c1 [] _ fuel' st1 v' out' eq_refl eq_refl (Hwf rs' Hr1 Hr2) (Hqt rs' Hr1) I1 Hout1) as [[_ _ _ _ _ _ _ R' _] _]; auto.
    - constructor; constructor.
    - rewrite Hres in R'. apply settled_extracted. exact (proj1 R').
  Qed.
End Props.

(** C44, in order: whatever the sink, the reader and the save consumer do, the
    entries handed to the sink (Mkdir, Symlink, GetWriter) are the first n of the
    archive, each once; nothing else is called but methods of their writers; without error, all. *)
Theorem C44_tar_in_order pol data start size k D tm b byt p late F N ms ok SK SV rs fuel s v out :
  stk_den pol data start size k D tm b byt p late -> tlayout F D tm N 0 0 ms ok -> rs_ok pol data rs ->
  out = tar_resume (noted SK) F (stk_source k) SV (tsrc start size k rs) fuel None (s, []) v ->
  let t := snd (to_sink _ _ _ out) in
  Forall (fun v => only_data v \/ handed_one v <> []) t /\ match t with v :: _ => handed_one v <> [] | [] => True end /\
  exists n, handed_entries t = firstn n (map fst (titems ms)) /\
    (forall l, to_res _ _ _ out = Ok l -> (length (titems ms) <= n)%nat).
Proof.
  intros Hden Hlay [Hr1 Hr2] Hout. destruct (stk_laws _ _ _ _ _ _ _ _ _ _ _ Hden) as (LL & [F1 F2 F3 F4 F5 F6 F7 F8]).
  destruct (resume_fresh_ev (stk_source k) D tm LL F N ok ms SK SV Hlay None _ fuel s v out eq_refl (F5 rs Hr1 Hr2) Hout) as (H1 & H2 & _ & n & H3 & H4).
  cbv zeta. splits; auto. exists n. split; [exact H3|]. intros l Hl. apply H4. rewrite Hl. reflexivity.
Qed.
(** The same when resuming: from the member the checkpoint is in. *)
Theorem C45_tar_resume_in_order pol data start size k D tm F N ms ok SK (L : sink_laws SK) st0 st later c earlier SV rs fuel v out :
  tarchive pol data start size k D tm F N ms ok L -> kl_inv L st0 -> tlife pol data start size k F L st0 ms st (later ++ c :: earlier) ->
  rs_ok pol data rs -> out = tar_resume (noted SK) F (stk_source k) SV (tsrc start size k rs) fuel (Some c) (st, []) v ->
  let t := snd (to_sink _ _ _ out) in
  Forall (fun v => only_data v \/ handed_one v <> []) t /\ match t with v :: _ => handed_one v <> [] | [] => True end /\
  exists n, handed_entries t = firstn n (map fst (titems (skipn (Z.to_nat (ec_index c)) ms))) /\
    (forall l, to_res _ _ _ out = Ok l -> (length (titems (skipn (Z.to_nat (ec_index c)) ms)) <= n)%nat).
Proof.
  intros HA Hi Hlife [Hr1 Hr2] Hout.
  destruct (ta_laws _ _ _ _ _ _ _ _ _ _ _ _ HA) as (LL & Hlate & Hwf & _ & Hqt & HSp).
  pose proof (ta_items _ _ _ _ _ _ _ _ _ _ _ _ HA) as Hv.
  pose proof (ta_layout _ _ _ _ _ _ _ _ _ _ _ _ HA) as Hlay.
  destruct (life_good pol data start size k D tm F N ms ok L st0 LL Hwf Hqt HSp Hv Hlay Hlate Hi _ _ Hlife) as (_ & _ & Hg & _).
  apply Forall_app in Hg. destruct Hg as [_ Hg]. inversion Hg as [|c' l' Hgc _]; subst c' l'.
  destruct Hgc as ((i & m & e & o & H1 & H2 & H3 & H4 & H5 & H6 & Hsv) & _). pose proof Hsv as (H7 & _).
  pose proof (saved_lands (stk_source k) D tm LL (spoilt k) ms SK L Hlate HSp _ _ _ _ Hsv) as Hland.
  assert (Ho : (o <= th_nb (tm_hdr m))%nat).
  { assert (Hd : (length (tm_data m) <= th_nb (tm_hdr m))%nat); [|lia].
    destruct (layout_nth F N ok ms 0 0 i m Hlay H1) as [-> _]. unfold slice. rewrite firstn_length. lia. }
  destruct (resume_at_ev (stk_source k) D tm LL F N ok ms SK SV Hlay c i m e o _ _ _ fuel st v out H1 H3 H2 Ho H5 H6 H7 Hland (Hwf rs Hr1 Hr2) (Hqt rs Hr1) Hout)
    as (G1 & G2 & _ & n & G3 & G4).
  rewrite H5, Nat2Z.id. cbv zeta. splits; auto. exists n. split; [exact G3|]. intros l Hl. apply G4. rewrite Hl. reflexivity.
Qed.

(** C47. A tar extraction never syncs anything. *)
Theorem C47_tar_never_syncs pol data start size k D tm b byt p late F N ms ok SK SV rs fuel s v out w :
  stk_den pol data start size k D tm b byt p late -> tlayout F D tm N 0 0 ms ok -> rs_ok pol data rs ->
  out = tar_resume (noted SK) F (stk_source k) SV (tsrc start size k rs) fuel None (s, []) v ->
  ~ In (KSync w) (snd (to_sink _ _ _ out)).
Proof.
  intros Hden Hlay [Hr1 Hr2] Hout Hin. destruct (stk_laws _ _ _ _ _ _ _ _ _ _ _ Hden) as (LL & [F1 F2 F3 F4 F5 F6 F7 F8]).
  destruct (resume_fresh_ev (stk_source k) D tm LL F N ok ms SK SV Hlay None _ fuel s v out eq_refl (F5 rs Hr1 Hr2) Hout) as (_ & _ & H & _).
  rewrite Forall_forall in H. exact (H _ Hin).
Qed.

(** ** Not vacuous: ExTar.v stops in the middle of a file and resumes. *)
Lemma et_rs_ok : rs_ok false et_in et_rs. Proof. split; [reflexivity|discriminate]. Qed.
Lemma et_life : tlife false et_in 0 54 et_k et_fmt map_laws map_empty et_ms (fst (to_sink _ _ _ et_first)) (rev (map fst (to_log _ _ _ et_first))).
Proof. eapply TfFresh; [apply TfStart|exact et_rs_ok|left; reflexivity|reflexivity]. Qed.
Lemma is_ok {A} (r : res A) : match r with Ok _ => true | _ => false end = true -> exists l, r = Ok l.
Proof. destruct r; try discriminate. eauto. Qed.
Lemma et_log_one : exists c s, to_log _ _ _ et_first = [(c, s)].
Proof.
  assert (H : length (to_log _ _ _ et_first) = 1%nat) by (vm_compute; reflexivity).
  destruct (to_log _ _ _ et_first) as [|[c s] [|]]; try discriminate. eauto.
Qed.
Lemma et_trun : trun false et_in 0 54 et_k et_fmt map_laws map_empty et_ms et_saver et_ck et_rs 300 (fst (to_sink _ _ _ et_first)) et_second.
Proof.
  destruct et_log_one as (c & s & Hlog). pose proof et_life as Hl. unfold et_second, et_ck. rewrite Hlog in *. cbn [rev map app fst hd_error] in *.
  exact (TrResume false et_in 0 54 et_k et_fmt map_laws map_empty et_ms et_saver _ [] c [] et_rs 300 0%nat _ Hl et_rs_ok eq_refl).
Qed.
Example C45_example :
  tarchive false et_in 0 54 et_k et_D EEof et_fmt 5 et_ms true map_laws /\
  trun false et_in 0 54 et_k et_fmt map_laws map_empty et_ms et_saver et_ck et_rs 300 (fst (to_sink _ _ _ et_first)) et_second /\
  et_ck <> None /\ to_res _ _ _ et_first = Err EStop /\ (exists l, to_res _ _ _ et_second = Ok l) /\
  map (ms_view (to_sink _ _ _ et_second)) [s2b "d"; s2b "x"; s2b "b"; s2b "c"; s2b "l"] =
    [Some NDir; None; Some (NFile (s2b "aabbcc")); Some (NFile (s2b "hhii")); Some (NLink (s2b "b"))] /\
  tsound map_laws et_ms /\ rs_good et_rs.
Proof.
  split; [exact et_archive|]. split; [exact et_trun|]. split.
  - unfold et_ck. destruct et_log_one as (c & s & ->). discriminate.
  - split; [exact (proj1 et_stopped)|]. split; [|split; [vm_compute; reflexivity|split]].
    + assert (H : match to_res _ _ _ et_second with Ok _ => true | _ => false end = true) by (vm_compute; reflexivity).
      apply is_ok; exact H.
    + intros e t _. exact Logic.I.
    + split; intros [].
Qed.
Example C44_in_order_example :
  handed_entries (snd (to_sink _ _ _ (et_resume (noted map_sink) None (map_empty, []) 0%nat))) = map fst (titems et_ms).
Proof. vm_compute. reflexivity. Qed.

(** C46. False of the code: directories and symlinks are missing from the
    result (only regular files are appended to it). *)
Theorem C46_tar_result_refuted :
  exists l e, to_res _ _ _ (et_resume map_sink None map_empty 0%nat) = Ok l /\
    In e (map fst (titems et_ms)) /\ ~ In (en_path e) (map en_path l) /\
    map (fun e => (en_path e, en_kind e)) (map fst (titems et_ms)) =
      [(s2b "d", EkDir); (s2b "b", EkFile); (s2b "c", EkFile); (s2b "l", EkSymlink)] /\
    map (fun e => (en_path e, en_kind e)) l = [(s2b "b", EkFile); (s2b "c", EkFile)].
Proof.
  assert (H : match to_res _ _ _ (et_resume map_sink None map_empty 0%nat) with Ok l => map (fun e => (en_path e, en_kind e)) l | _ => [] end =
     [(s2b "b", EkFile); (s2b "c", EkFile)]) by (vm_compute; reflexivity).
  destruct (to_res _ _ _ (et_resume map_sink None map_empty 0%nat)) as [l| | |]; try discriminate.
  exists l, (MkEntry (s2b "d") EkDir 493 0 0 0 []). split; [reflexivity|]. split; [left; reflexivity|]. split; [|split; [vm_compute; reflexivity|exact H]].
  intros Hin. assert (Hm : map en_path l = map fst (map (fun e => (en_path e, en_kind e)) l)) by (rewrite map_map; reflexivity).
  rewrite Hm, H in Hin. destruct Hin as [Hin|[Hin|[]]]; discriminate.
Qed.

(** C47. False of the code: nothing is synced. The power fails right after the
    first checkpoint was saved; resuming from it succeeds, but the first four
    bytes of the file are lost. *)
Theorem C47_tar_power_loss_refuted :
  exists (c : teck (stk_source et_k)) s,
    In (c, s) (to_log _ _ _ (et_resume map_sink None map_empty 1%nat)) /\
    let out := et_resume map_sink (Some c) (map_power_loss s) 0%nat in
    (exists l, to_res _ _ _ out = Ok l) /\
    ms_view (to_sink _ _ _ out) (s2b "b") = Some (NFile (repeat zero 4 ++ s2b "cc")) /\
    ~ extracted map_laws (titems et_ms) (ms_view map_empty) (to_sink _ _ _ out).
Proof.
  destruct (to_log _ _ _ (et_resume map_sink None map_empty 1%nat)) as [|[c s] rest] eqn:Hlog.
  { assert (H : length (to_log _ _ _ (et_resume map_sink None map_empty 1%nat)) = 1%nat) by (vm_compute; reflexivity). rewrite Hlog in H. discriminate. }
  assert (H : forall P : option (teck (stk_source et_k) * mstate) -> Prop,
    P (hd_error (to_log _ _ _ (et_resume map_sink None map_empty 1%nat))) -> P (Some (c, s))) by (rewrite Hlog; auto).
  set (want := repeat zero 4 ++ s2b "cc").
  assert (H1 : match to_res _ _ _ (et_resume map_sink (Some c) (map_power_loss s) 0%nat) with Ok _ => true | _ => false end = true).
  { apply (H (fun o => match o with Some (c, s) => match to_res _ _ _ (et_resume map_sink (Some c) (map_power_loss s) 0%nat) with Ok _ => true | _ => false end = true | None => False end)).
    vm_compute. reflexivity. }
  assert (H2 : ms_view (to_sink _ _ _ (et_resume map_sink (Some c) (map_power_loss s) 0%nat)) (s2b "b") = Some (NFile want)).
  { apply (H (fun o => match o with Some (c, s) => ms_view (to_sink _ _ _ (et_resume map_sink (Some c) (map_power_loss s) 0%nat)) (s2b "b") = Some (NFile want) | None => False end)).
    vm_compute. reflexivity. }
  exists c, s. split; [left; reflexivity|]. cbv zeta. split; [|split; [exact H2|]].
  - apply is_ok; exact H1.
  - intros (Hx & _). specialize (Hx 1%nat (MkEntry (s2b "b") EkFile 420 0 6 0 []) (NFile (s2b "aabbcc")) (s2b "b") eq_refl eq_refl).
    assert (Hl : is_last map_laws (titems et_ms) 1 (s2b "b")).
    { intros j it Hj Hn. do 4 (destruct j as [|j]; [try lia; injection Hn as <-; vm_compute; discriminate|]). destruct j; discriminate. }
    specialize (Hx Hl). change (kl_view map_laws) with ms_view in Hx. rewrite H2 in Hx. discriminate.
Qed.

(** C48. False of the code: Resume(c) is stopped by a failing write, after
    having written "cc" and moved WriteOffset in c; Resume(c) again repeats the
    bytes from the old position of the tar reader. *)
Definition et_fail := et_resume (crashing map_sink) et_ck (fst (to_sink _ _ _ et_first), Some 2%nat) 0%nat.
Definition et_retry := et_resume map_sink (to_ck _ _ _ et_fail) (fst (to_sink _ _ _ et_fail)) 0%nat.
Lemma et_ck_only c : In c (map fst (to_log _ _ _ et_first)) -> et_ck = Some c.
Proof. unfold et_ck. destruct et_log_one as (c1 & s & ->). intros [<-|[]]. reflexivity. Qed.
Lemma et_fail_io : to_res _ _ _ et_fail = Err EIO.
Proof. vm_compute. reflexivity. Qed.
Lemma et_retry_ok : exists l, to_res _ _ _ et_retry = Ok l.
Proof. apply is_ok. vm_compute. reflexivity. Qed.
Lemma et_retry_view : ms_view (to_sink _ _ _ et_retry) (s2b "b") = Some (NFile (s2b "aabbcccc")).
Proof. vm_compute. reflexivity. Qed.
Lemma et_retry_bad (s : mstate) : ms_view s (s2b "b") = Some (NFile (s2b "aabbcccc")) -> ~ extracted map_laws (titems et_ms) (ms_view map_empty) s.
Proof.
  intros H2 (Hx & _). specialize (Hx 1%nat (MkEntry (s2b "b") EkFile 420 0 6 0 []) (NFile (s2b "aabbcc")) (s2b "b") eq_refl eq_refl).
  assert (Hl : is_last map_laws (titems et_ms) 1 (s2b "b")).
  { intros j it Hj Hn. do 4 (destruct j as [|j]; [try lia; injection Hn as <-; vm_compute; discriminate|]). destruct j; discriminate. }
  specialize (Hx Hl). change (kl_view map_laws) with ms_view in Hx. rewrite H2 in Hx. discriminate.
Qed.
Theorem C48_tar_retry_same_object_refuted :
  (forall c, In c (map fst (to_log _ _ _ et_first)) -> et_ck = Some c) /\ to_res _ _ _ et_fail = Err EIO /\
  (exists l, to_res _ _ _ et_retry = Ok l) /\
  ms_view (to_sink _ _ _ et_retry) (s2b "b") = Some (NFile (s2b "aabbcccc")) /\
  ~ extracted map_laws (titems et_ms) (ms_view map_empty) (to_sink _ _ _ et_retry).
Proof.
  split; [exact et_ck_only|]. split; [exact et_fail_io|]. split; [exact et_retry_ok|]. split; [exact et_retry_view|].
  apply et_retry_bad. exact et_retry_view.
Qed.

(** What holds: retrying with the object is right if no bytes were written since the
    position saved in it (its WriteOffset still matches its tar position), or
    if it holds no position (then everything is done again). *)
Theorem C48_tar_retry_same_object_partial pol data start size k D tm F N ms ok SK (L : sink_laws SK) st0 st later c earlier SV rs fuel v n out c' SV' rs' fuel' v' out' l :
  tarchive pol data start size k D tm F N ms ok L -> kl_inv L st0 ->
  tlife pol data start size k F L st0 ms st (later ++ c :: earlier) -> rs_ok pol data rs ->
  out = tar_resume (crashing SK) F (stk_source k) SV (tsrc start size k rs) fuel (Some c) (st, n) v ->
  to_ck _ _ _ out = Some c' -> in_step k L ms c' \/ ec_data c' = None -> rs_ok pol data rs' ->
  out' = tar_resume SK F (stk_source k) SV' (tsrc start size k rs') fuel' (Some c') (fst (to_sink _ _ _ out)) v' -> to_res _ _ _ out' = Ok l ->
  extracted L (titems ms) (kl_view L st0) (to_sink _ _ _ out').
Proof.
  intros HA Hi Hlife Hr Hout Hck Hc' Hr' Hout' Hres.
  destruct Hc' as [Hc'|Hc'].
  - assert (Hl2 : tlife pol data start size k F L st0 ms (fst (to_sink _ _ _ out)) ([c'] ++ rev (map fst (to_log _ _ _ out)) ++ c :: earlier)).
    { eapply TfResume; [exact Hlife|exact Hr|exact Hout|]. intros c0 [<-|[]]. auto. }
    eapply proj1, (C45_tar_resume_exact pol data start size k D tm F N ms ok SK L HA st0 SV' (Some c') rs' fuel' _ out' l Hi); [|exact Hres].
    exact (TrResume pol data start size k F L st0 ms SV' _ [] c' _ rs' fuel' v' out' Hl2 Hr' Hout').
  - assert (Hl2 : tlife pol data start size k F L st0 ms (fst (to_sink _ _ _ out)) ([] ++ rev (map fst (to_log _ _ _ out)) ++ c :: earlier)).
    { eapply TfResume; [exact Hlife|exact Hr|exact Hout|]. intros c0 []. }
    eapply proj1, (C45_tar_resume_exact pol data start size k D tm F N ms ok SK L HA st0 SV' (Some c') rs' fuel' _ out' l Hi); [|exact Hres].
    eapply (TrFresh pol data start size k F L st0 ms SV' _ _ (Some c') rs' fuel' v' out' Hl2 Hr'); [|exact Hout'].
    right. eauto.
Qed.
(** The failing run that stops before writing anything leaves such an object. *)
Definition et_fail1 := et_resume (crashing map_sink) et_ck (fst (to_sink _ _ _ et_first), Some 1%nat) 0%nat.
Example C48_example : to_res _ _ _ et_fail1 = Err EIO /\
  option_map (fun c => (ec_index c, option_map en_woff (ec_entry c), match ec_data c with Some (MkTs _ (Some s)) => Some (sr_off s) | _ => None end)) (to_ck _ _ _ et_fail1)
    = Some (2, Some 4, Some 24) /\ Z.of_nat (tm_pos et_m2) + 4 = 24.
Proof. splits; vm_compute; reflexivity. Qed.

(** C57. False of the code: success does not mean that the compressed stream
    was intact up to its end. Here it is damaged after the end of the tar archive
    (so that reading it to the end would report an error). *)
Definition et_in2 : bytes := et_pack "dd0xx2qfb6abcpfc4hipllbeee" "Z".
Lemma et_den2 : stk_den false et_in2 0 54 et_k et_D ECorrupt (200 + 52) true true false.
Proof.
  unfold et_k.
  refine (DenDec false et_in2 0 54 (ex_codec false false) gzip_cfg 300 KSeek et_in2 EEof 54 false false 200 et_D ECorrupt true
    _ _ _ _ _ _ _ _ _); try reflexivity; try discriminate; try lia.
  - exact (DenSeek false et_in2 0 54 ltac:(lia) ltac:(lia) ltac:(unfold two63; lia)).
  - apply ex_saves_ok.
  - right. vm_compute. splits; try discriminate; exact I.
  - intros _. split; [reflexivity|]. vm_compute. splits; try reflexivity; exact I.
Qed.
Theorem C57_tar_damage_after_end_refuted :
  stk_den false et_in2 0 54 et_k et_D ECorrupt (200 + 52) true true false /\
  exists l, to_res _ _ _ (tar_resume map_sink et_fmt (stk_source et_k) et_saver (tsrc 0 54 et_k (MkRs et_in2 0 [] [])) 300 None map_empty 0%nat) = Ok l.
Proof. split; [exact et_den2|]. apply is_ok. vm_compute. reflexivity. Qed.
(** What holds: the part of the stream that contains the archive was intact. *)
Theorem C57_tar_archive_intact_partial pol data start size k D tm F N ms ok SK (L : sink_laws SK) st0 SV c rs fuel st out l :
  tarchive pol data start size k D tm F N ms ok L -> kl_inv L st0 ->
  trun pol data start size k F L st0 ms SV c rs fuel st out -> to_res _ _ _ out = Ok l ->
  ok = true /\ forall m, In m ms -> length (tm_data m) = th_nb (tm_hdr m) /\ tm_data m = slice D (tm_pos m) (th_nb (tm_hdr m)).
Proof.
  intros HA Hi Hrun Hres. pose proof (ta_layout _ _ _ _ _ _ _ _ _ _ _ _ HA) as Hlay.
  destruct (C45_tar_resume_exact pol data start size k D tm F N ms ok SK L HA st0 SV c rs fuel st out l Hi Hrun Hres) as [_ Hok].
  split; [exact Hok|]. subst ok. intros m Hm. destruct (In_nth_error _ _ Hm) as (i & Hn).
  destruct (layout_nth F N true ms 0 0 i m Hlay Hn) as [H1 [[H2 _]|(_ & _ & H2)]]; [|discriminate].
  split; [|exact H1]. rewrite H1. unfold slice. rewrite firstn_length, skipn_length. lia.
Qed.
