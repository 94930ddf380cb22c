(** Props_loss_tar.v -- C47, what does hold: tar extractions through power
    failures, as Props_loss.v for zip. *)
From Verif Require Import Base Base_proofs Source Contract Seek Decomp CodecSpec Drive Copier Sink Zip SinkSpec LossSpec ZipSpec Settle_proofs Loss_proofs
  Path PathSpec Path_proofs FS FS_proofs FolderSink FSteps_proofs FSLex_proofs FolderSpec Folder_proofs FolderLaws FolderOps_proofs FolderMisc_proofs
  Tar TarSpec Tar2_proofs ExCodec ExSink ExFolder ExTar Props_folder Props_zip_folder Props_tar Props_tar_folder Props_loss.

Section Tar.
  Context (pol : bool) (data : bytes) (start size : Z) (k : stk) (D : bytes) (tm : gerr) (F : tfmt) (N : nat).
  Context (ms : list tmember) (ok : bool).
  Notation S := (stk_source k).
  Notation done c1 := (titems (firstn (Z.to_nat (ec_index c1)) ms)).
  Notation rest c1 := (titems (skipn (Z.to_nat (ec_index c1)) ms)).

  (** C47. In a history of runs that were stopped, failed or were killed at any moment, let [c1] be
      one of the checkpoints saved and still valid. The power fails, and spares what was
      complete when [c1] was saved and the first WriteOffset bytes of the file [c1] is
      in. Then resuming from [c1] gives the complete and correct output. *)
  Theorem C47_tar_power_loss_any_time_partial SK (L : sink_laws SK) st0 st later c1 earlier st1 SV rs fuel v out l :
    tarchive pol data start size k D tm F N ms ok L -> kl_inv L st0 ->
    tlife pol data start size k F L st0 ms st (later ++ c1 :: earlier) ->
    kl_inv L st1 -> loss_spares L (done c1) (rest c1) (ec_entry c1) st st1 ->
    rs_ok pol data rs -> out = tar_resume SK F S SV (tsrc start size k rs) fuel (Some c1) st1 v -> to_res _ _ _ out = Ok l ->
    extracted L (titems ms) (kl_view L st0) (to_sink _ _ _ out) /\ ok = true.
  Proof.
    intros HA Hi Hl I1 Hloss Hrs Hout Hres.
    eapply (C45_tar_resume_exact pol data start size k D tm F N ms ok SK L HA st0 SV (Some c1) rs fuel st1); [exact Hi| |exact Hres].
    eapply (TrResume pol data start size k F L st0 ms SV st1 [] c1 earlier); [|exact Hrs|exact Hout].
    exact (TfPower _ _ _ _ _ _ _ _ _ _ _ _ _ _ Hl I1 Hloss).
  Qed.
  (** ... and if nothing fails any more, it does succeed. *)
  Theorem C47_tar_power_loss_completes_partial SK (L : sink_laws SK) :
    tarchive pol data start size k D tm F N ms ok L -> tm = EEof -> ok = true -> tsound L ms ->
    exists B, forall st0 st later c1 earlier st1 SV rs fuel v out, kl_inv L st0 ->
      tlife pol data start size k F L st0 ms st (later ++ c1 :: earlier) ->
      kl_inv L st1 -> loss_spares L (done c1) (rest c1) (ec_entry c1) st st1 ->
      rs_ok pol data rs -> out = tar_resume SK F S SV (tsrc start size k rs) fuel (Some c1) st1 v ->
      kl_clean L st1 -> rs_good rs -> saver_goes_on SV -> (B < fuel)%nat ->
      exists l, to_res _ _ _ out = Ok l /\ extracted L (titems ms) (kl_view L st0) (to_sink _ _ _ out).
  Proof.
    intros HA Ht Hok Hs. destruct (C45_tar_resume_completes pol data start size k D tm F N ms ok SK L HA Ht Hok Hs) as (B & H). exists B.
    intros st0 st later c1 earlier st1 SV rs fuel v out Hi Hl I1 Hloss Hrs Hout Hc Hg Hsv Hf.
    eapply (H st0 SV (Some c1) rs fuel st1 out Hi); [|exact Hc|exact Hg|exact Hsv|exact Hf].
    eapply (TrResume pol data start size k F L st0 ms SV st1 [] c1 earlier); [|exact Hrs|exact Hout].
    exact (TfPower _ _ _ _ _ _ _ _ _ _ _ _ _ _ Hl I1 Hloss).
  Qed.

  (** ** The folder sink: [folder_reboot] and [files_spared] are in Props_loss.v. *)
  Context (c : fcfg) (Hwd : is_abs (fc_wd c) = true) (Hb : fbase c <> []) (HS : holdable c (tentries_of ms)).
  Context (Hden : exists b byt p, stk_den pol data start size k D tm b byt p false) (Hlay : tlayout F D tm N 0 0 ms ok).
  Notation FL := (folder_laws c (tentries_of ms) Hwd Hb HS).
  Notation SK := (folder_sink c).

  Lemma tar_life_ready k0 k1 cks : ready c (tentries_of ms) k0 -> tlife pol data start size k F FL k0 ms k1 cks -> ready c (tentries_of ms) k1.
  Proof.
    intros Hr Hl. pose proof (folder_tarchive pol data start size k D tm F N ms ok c Hwd Hb HS Hden Hlay) as HA.
    destruct (ta_laws _ _ _ _ _ _ _ _ _ _ _ _ HA) as (LL & Hlate & Hwf & _ & Hqt & HSp).
    apply (ready_finv c (tentries_of ms)) in Hr. apply (ready_finv c (tentries_of ms)).
    exact (proj1 (life_good pol data start size k D tm F N ms ok FL k0 LL Hwf Hqt HSp (ta_valid _ _ _ _ _ _ _ _ _ _ _ _ HA) Hlay Hlate Hr _ _ Hl)).
  Qed.

  Lemma tar_power_life k0 k1 later c1 earlier f orc : ready c (tentries_of ms) k0 ->
    tlife pol data start size k F FL k0 ms k1 (later ++ c1 :: earlier) ->
    files_spared c (rest c1) (ec_entry c1) f (fk_fs k1) ->
    tlife pol data start size k F FL k0 ms (folder_reboot f orc k1) (c1 :: earlier).
  Proof.
    intros Hr Hl Hf. eapply TfPower; [exact Hl| |].
    - change (finv c (tentries_of ms) (folder_reboot f orc k1)). apply ready_finv. apply reboot_ready. exact (tar_life_ready _ _ _ Hr Hl).
    - apply reboot_spares. exact Hf.
  Qed.

  Theorem C47_tar_folder_power_loss_partial k0 k1 later c1 earlier f orc SV rs fuel v out l : ready c (tentries_of ms) k0 ->
    tlife pol data start size k F FL k0 ms k1 (later ++ c1 :: earlier) ->
    files_spared c (rest c1) (ec_entry c1) f (fk_fs k1) -> rs_ok pol data rs ->
    out = tar_resume SK F S SV (tsrc start size k rs) fuel (Some c1) (folder_reboot f orc k1) v -> to_res _ _ _ out = Ok l ->
    folder_holds c (titems ms) (fk_fs k0) (fk_fs (to_sink _ _ _ out)) /\ ok = true.
  Proof.
    intros Hr Hl Hf Hrs Hout Hres.
    eapply (C45_tar_folder_resume_exact pol data start size k D tm F N ms ok c Hwd Hb HS Hden Hlay SV k0 (Some c1) rs fuel); [exact Hr| |exact Hres].
    eapply (TrResume pol data start size k F FL k0 ms SV _ [] c1 earlier); [|exact Hrs|exact Hout].
    exact (tar_power_life k0 k1 later c1 earlier f orc Hr Hl Hf).
  Qed.
  Theorem C47_tar_folder_power_loss_completes_partial : tm = EEof -> ok = true ->
    (forall e t, In (e, NLink t) (titems ms) -> is_abs t = false /\ at_or_below (fbase c) (walk (removelast (eloc c e)) (split_slash t))) ->
    exists B, forall k0 k1 later c1 earlier f orc SV rs fuel v out, ready c (tentries_of ms) k0 ->
      tlife pol data start size k F FL k0 ms k1 (later ++ c1 :: earlier) ->
      files_spared c (rest c1) (ec_entry c1) f (fk_fs k1) -> rs_ok pol data rs ->
      out = tar_resume SK F S SV (tsrc start size k rs) fuel (Some c1) (folder_reboot f orc k1) v ->
      (forall i, orc i = None) -> rs_good rs -> saver_goes_on SV -> (B < fuel)%nat ->
      exists l, to_res _ _ _ out = Ok l /\ folder_holds c (titems ms) (fk_fs k0) (fk_fs (to_sink _ _ _ out)).
  Proof.
    intros Ht Hok Hs. destruct (C45_tar_folder_resume_completes pol data start size k D tm F N ms ok c Hwd Hb HS Hden Hlay Ht Hok Hs) as (B & H). exists B.
    intros k0 k1 later c1 earlier f orc SV rs fuel v out Hr Hl Hf Hrs Hout Horc Hg Hsv Hfu.
    eapply (H SV k0 (Some c1) rs fuel (folder_reboot f orc k1) out Hr); [| |exact Hg|exact Hsv|exact Hfu].
    - eapply (TrResume pol data start size k F FL k0 ms SV _ [] c1 earlier); [|exact Hrs|exact Hout].
      exact (tar_power_life k0 k1 later c1 earlier f orc Hr Hl Hf).
    - intros i. exact (Horc i).
  Qed.
End Tar.

(** ** A concrete case: ExTar's archive into "/out" of ExFolder's file system. The process
    is killed after the first half of "c" was written; its checkpoint is in the middle
    of "b". Then the power fails: of "b" only the first four bytes are left (followed by
    other data), and "c" has lost its content. *)
Definition plt_first := et_resume (crashing (folder_sink ex_c)) None (fz_k, Some 10%nat) 0%nat.
Definition plt_k : fsink := fst (to_sink _ _ _ plt_first).
Definition plt_f (i : nat) : bytes :=
  if (i =? 1)%nat then s2b "aabb??" else if (i =? 2)%nat then [] else i_data (f_ino (fk_fs plt_k) i).
Definition plt_second (c1 : teck (stk_source et_k)) := et_resume (folder_sink ex_c) (Some c1) (folder_reboot plt_f ok_orc plt_k) 0%nat.

Lemma plt_b : f_tree (fk_fs plt_k) (at_ ["out"; "b"]%string) = Some (FFile 1).
Proof. vm_compute. reflexivity. Qed.
Lemma plt_c : f_tree (fk_fs plt_k) (at_ ["out"; "c"]%string) = Some (FFile 2).
Proof. vm_compute. reflexivity. Qed.
Lemma plt_before : map (node_at (fk_fs plt_k)) [at_ ["out"; "b"]; at_ ["out"; "c"]; at_ ["out"; "keep"]]%string =
    [Some (NFile (s2b "aabbcc")); Some (NFile (s2b "hh")); Some (NFile (s2b "mine"))].
Proof. vm_compute. reflexivity. Qed.
Lemma plt_data1 : i_data (f_ino (fk_fs plt_k) 1) = s2b "aabbcc".
Proof. vm_compute. reflexivity. Qed.
Definition is_okb {A} (r : res A) : bool := match r with Ok _ => true | _ => false end.
Lemma is_okb_ok {A} (r : res A) : is_okb r = true -> exists l, r = Ok l.
Proof. destruct r; try discriminate. eauto. Qed.
Lemma plt_ck : exists c1, map fst (to_log _ _ _ plt_first) = [c1] /\ ec_index c1 = 2 /\
  option_map en_path (ec_entry c1) = Some (s2b "b") /\ option_map en_woff (ec_entry c1) = Some 4 /\
  is_okb (to_res _ _ _ (plt_second c1)) = true /\
  map (node_at (fk_fs (to_sink _ _ _ (plt_second c1)))) [at_ ["out"; "d"]; at_ ["out"; "b"]; at_ ["out"; "c"]; at_ ["out"; "l"]; at_ ["out"; "keep"]]%string =
    [Some NDir; Some (NFile (s2b "aabbcc")); Some (NFile (s2b "hhii")); Some (NLink (s2b "b")); Some (NFile (s2b "mine"))].
Proof.
  assert (H1 : length (map fst (to_log _ _ _ plt_first)) = 1%nat) by (vm_compute; reflexivity).
  assert (H2 : map (fun c1 : teck (stk_source et_k) => (ec_index c1, option_map en_path (ec_entry c1), option_map en_woff (ec_entry c1), is_okb (to_res _ _ _ (plt_second c1)),
     map (node_at (fk_fs (to_sink _ _ _ (plt_second c1)))) [at_ ["out"; "d"]; at_ ["out"; "b"]; at_ ["out"; "c"]; at_ ["out"; "l"]; at_ ["out"; "keep"]]%string))
     (map fst (to_log _ _ _ plt_first)) =
     [(2, Some (s2b "b"), Some 4, true,
       [Some NDir; Some (NFile (s2b "aabbcc")); Some (NFile (s2b "hhii")); Some (NLink (s2b "b")); Some (NFile (s2b "mine"))])]) by (vm_compute; reflexivity).
  destruct (map fst (to_log _ _ _ plt_first)) as [|c1 [|]]; try discriminate H1.
  exists c1. split; [reflexivity|]. apply map_one in H2. cbv beta in H2. exact (single5 _ _ _ _ _ _ _ _ _ _ H2).
Qed.

Notation plt_laws := (folder_laws ex_c (tentries_of et_ms) eq_refl ex_base tz_holdable).
Lemma plt_life_of c1 n out : out = et_resume (crashing (folder_sink ex_c)) None (fz_k, n) 0%nat ->
  map fst (to_log _ _ _ out) = [c1] ->
  tlife false et_in 0 54 et_k et_fmt plt_laws fz_k et_ms (fst (to_sink _ _ _ out)) ([] ++ c1 :: []).
Proof.
  intros Ho H. pose proof (TfFresh false et_in 0 54 et_k et_fmt plt_laws fz_k et_ms fz_k [] None et_saver et_rs 300 0%nat n out
          (TfStart _ _ _ _ _ _ _ _ _) et_rs_ok (or_introl eq_refl) Ho) as Hl.
  rewrite H in Hl. exact Hl.
Qed.
Lemma plt_first_eq : plt_first = et_resume (crashing (folder_sink ex_c)) None (fz_k, Some 10%nat) 0%nat.
Proof. reflexivity. Qed.
Lemma plt_life c1 : map fst (to_log _ _ _ plt_first) = [c1] ->
  tlife false et_in 0 54 et_k et_fmt plt_laws fz_k et_ms plt_k ([] ++ c1 :: []).
Proof. exact (plt_life_of c1 (Some 10%nat) plt_first plt_first_eq). Qed.
Lemma plt_den : exists b byt p, stk_den false et_in 0 54 et_k et_D EEof b byt p false.
Proof. do 3 eexists. exact et_den. Qed.

Lemma plt_spared c1 : map fst (to_log _ _ _ plt_first) = [c1] -> ec_index c1 = 2 ->
  option_map en_path (ec_entry c1) = Some (s2b "b") -> option_map en_woff (ec_entry c1) = Some 4 ->
  files_spared ex_c (titems (skipn (Z.to_nat (ec_index c1)) et_ms)) (ec_entry c1) plt_f (fk_fs plt_k).
Proof.
  intros Hc Hi Hp Hw. rewrite Hi.
  pose proof (tar_life_ready false et_in 0 54 et_k et_D EEof et_fmt 5 et_ms true ex_c eq_refl ex_base tz_holdable plt_den (et_layout EEof) fz_k plt_k _ tz_ready (plt_life c1 Hc)) as [_ _ _ _ _ Hhard _ _].
  split.
  - intros l i Ht Hno. unfold plt_f. destruct (Nat.eqb_spec i 1) as [->|H1]; [exfalso|destruct (Nat.eqb_spec i 2) as [->|H3]; [exfalso|reflexivity]].
    + pose proof (Hhard _ _ _ Ht plt_b) as ->. apply (Hno (th_entry (tm_hdr et_m2) EkFile []) (NFile (tm_data et_m2))); [left; reflexivity|reflexivity|vm_compute; reflexivity].
    + pose proof (Hhard _ _ _ Ht plt_c) as ->. apply (Hno (th_entry (tm_hdr et_m3) EkFile []) (NFile (tm_data et_m3))); [right; left; reflexivity|reflexivity|vm_compute; reflexivity].
  - intros e i He _ Ht. rewrite He in Hp, Hw. cbn [option_map] in Hp, Hw. injection Hw as Hw. injection Hp as Hp.
    assert (Hl : eloc ex_c e = at_ ["out"; "b"]%string).
    { transitivity (eloc ex_c (th_entry (tm_hdr et_m2) EkFile [])); [apply eloc_path; exact Hp|vm_compute; reflexivity]. }
    rewrite Hl, plt_b in Ht. injection Ht as <-. rewrite plt_data1, Hw. vm_compute. reflexivity.
Qed.

Example C47_tar_folder_example : exists c1,
  ready ex_c (tentries_of et_ms) fz_k /\
  tlife false et_in 0 54 et_k et_fmt plt_laws fz_k et_ms plt_k ([] ++ c1 :: []) /\
  files_spared ex_c (titems (skipn (Z.to_nat (ec_index c1)) et_ms)) (ec_entry c1) plt_f (fk_fs plt_k) /\
  map (node_at (fk_fs plt_k)) [at_ ["out"; "b"]; at_ ["out"; "c"]; at_ ["out"; "keep"]]%string =
    [Some (NFile (s2b "aabbcc")); Some (NFile (s2b "hh")); Some (NFile (s2b "mine"))] /\
  map (node_at (fk_fs (folder_reboot plt_f ok_orc plt_k))) [at_ ["out"; "b"]; at_ ["out"; "c"]]%string = [Some (NFile (s2b "aabb??")); Some (NFile [])] /\
  (exists l, to_res _ _ _ (plt_second c1) = Ok l) /\
  map (node_at (fk_fs (to_sink _ _ _ (plt_second c1)))) [at_ ["out"; "d"]; at_ ["out"; "b"]; at_ ["out"; "c"]; at_ ["out"; "l"]; at_ ["out"; "keep"]]%string =
    [Some NDir; Some (NFile (s2b "aabbcc")); Some (NFile (s2b "hhii")); Some (NLink (s2b "b")); Some (NFile (s2b "mine"))].
Proof.
  destruct plt_ck as (c1 & H1 & H2 & H3 & H4 & H5 & H6). exists c1. split; [exact tz_ready|]. split; [exact (plt_life c1 H1)|].
  split; [exact (plt_spared c1 H1 H2 H3 H4)|]. split; [exact plt_before|]. split; [vm_compute; reflexivity|].
  split; [exact (is_okb_ok _ H5)|exact H6].
Qed.
