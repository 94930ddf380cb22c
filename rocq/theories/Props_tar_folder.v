(** Props_tar_folder.v -- C44, C45, C49 for the tar extractor writing to a
    FolderSink: the theorems of Props_tar.v with [folder_laws] (FolderLaws.v), stated in
    terms of the file system ([folder_holds] in Props_zip_folder.v). *)
From Verif Require Import Base Base_proofs Source Contract Seek Decomp CodecSpec Drive Copier Sink Zip SinkSpec ZipSpec Settle_proofs
  Path PathSpec Path_proofs FS FS_proofs FolderSink FSteps_proofs FSLex_proofs FolderSpec Folder_proofs FolderLaws FolderOps_proofs FolderMisc_proofs
  Tar TarSpec Tar2_proofs ExCodec ExSink ExFolder ExTar Props_folder Props_zip_folder Props_tar.

(** The entries of a tar archive. *)
Definition tentries_of (ms : list tmember) (e : entry) : Prop := exists nd, In (e, nd) (titems ms).

Section FolderTar.
  Context (pol : bool) (data : bytes) (start size : Z) (k : stk) (D : bytes) (tm : gerr) (F : tfmt) (N : nat).
  Context (ms : list tmember) (ok : bool) (c : fcfg).
  Context (Hwd : is_abs (fc_wd c) = true) (Hb : fbase c <> []) (HS : holdable c (tentries_of ms)).
  Context (Hden : exists b byt p, stk_den pol data start size k D tm b byt p false) (Hlay : tlayout F D tm N 0 0 ms ok).
  Notation FL := (folder_laws c (tentries_of ms) Hwd Hb HS).
  Notation SK := (folder_sink c).
  Notation S := (stk_source k).

  Lemma folder_tarchive : tarchive pol data start size k D tm F N ms ok FL.
  Proof.
    split; [exact Hden|exact Hlay|]. apply storable_any; [intros; exact Logic.I|]. intros [e nd] Hm. exists e. split; [exists nd; exact Hm|]. auto.
  Qed.

  (** C45: whatever happened before. *)
  Theorem C45_tar_folder_resume_exact SV k0 ck rs fuel st out l : ready c (tentries_of ms) k0 ->
    trun pol data start size k F FL k0 ms SV ck rs fuel st out -> to_res _ _ _ out = Ok l ->
    folder_holds c (titems ms) (fk_fs k0) (fk_fs (to_sink _ _ _ out)) /\ ok = true.
  Proof.
    intros Hr Hrun Hres. apply (ready_finv c (tentries_of ms)) in Hr.
    destruct (C45_tar_resume_exact pol data start size k D tm F N ms ok SK FL folder_tarchive k0 SV ck rs fuel st out l Hr Hrun Hres) as [H1 H2].
    split; [eapply folder_holds_extracted; exact H1|exact H2].
  Qed.
  Theorem C45_tar_folder_resume_completes : tm = EEof -> ok = true ->
    (forall e t, In (e, NLink t) (titems ms) -> is_abs t = false /\ at_or_below (fbase c) (walk (removelast (eloc c e)) (split_slash t))) ->
    exists B, forall SV k0 ck rs fuel st out, ready c (tentries_of ms) k0 -> trun pol data start size k F FL k0 ms SV ck rs fuel st out ->
      no_fault (fk_fs st) -> rs_good rs -> saver_goes_on SV -> (B < fuel)%nat ->
      exists l, to_res _ _ _ out = Ok l /\ folder_holds c (titems ms) (fk_fs k0) (fk_fs (to_sink _ _ _ out)).
  Proof.
    intros Ht Hok Hs. destruct (C45_tar_resume_completes pol data start size k D tm F N ms ok SK FL folder_tarchive Ht Hok) as (B & H).
    { intros e t Hin. exact (Hs e t Hin). }
    exists B. intros SV k0 ck rs fuel st out Hr Hrun Hc Hg Hsv Hf. apply (ready_finv c (tentries_of ms)) in Hr.
    destruct (H k0 SV ck rs fuel st out Hr Hrun Hc Hg Hsv Hf) as (l & H1 & H2). exists l. split; [exact H1|]. eapply folder_holds_extracted; exact H2.
  Qed.

  (** C44 *)
  Theorem C44_tar_folder_exact SV k0 rs fuel v out l : ready c (tentries_of ms) k0 -> rs_ok pol data rs ->
    out = tar_resume SK F S SV (tsrc start size k rs) fuel None k0 v -> to_res _ _ _ out = Ok l ->
    folder_holds c (titems ms) (fk_fs k0) (fk_fs (to_sink _ _ _ out)) /\ ok = true.
  Proof.
    intros Hr Hrs Hout Hres. eapply C45_tar_folder_resume_exact; [exact Hr| |exact Hres].
    eapply TrFresh; [apply TfStart|exact Hrs|left; reflexivity|exact Hout].
  Qed.
End FolderTar.

(** ** A concrete case: ExTar's archive into "/out" of ExFolder's file system. *)
Lemma tt_entries e : tentries_of et_ms e -> In e (map fst (titems et_ms)).
Proof. intros (nd & H). exact (in_map fst _ _ H). Qed.
Lemma tz_holdable : holdable ex_c (tentries_of et_ms).
Proof.
  constructor.
  - intros e Hm _. apply tt_entries in Hm. apply at_or_belowb_spec. destruct Hm as [<-|[<-|[<-|[<-|[]]]]]; vm_compute; reflexivity.
  - intros e e' Hm Hm' _ _ H. apply tt_entries in Hm, Hm'.
    destruct Hm as [<-|[<-|[<-|[<-|[]]]]]; destruct Hm' as [<-|[<-|[<-|[<-|[]]]]]; vm_compute in H |- *; congruence.
  - intros e e' Hm Hm' _ _ [H Hne]. apply tt_entries in Hm, Hm'. apply at_or_belowb_spec in H.
    destruct Hm as [<-|[<-|[<-|[<-|[]]]]]; destruct Hm' as [<-|[<-|[<-|[<-|[]]]]]; vm_compute in H, Hne |- *; congruence.
Qed.
Lemma tz_ready : ready ex_c (tentries_of et_ms) fz_k.
Proof.
  assert (Ha : forall l, above_b fz_nodes l = true -> hard_b fz_nodes l = true -> approachable fz_k l)
    by (intros l H1 H2; apply ex_approachable; auto; vm_compute; reflexivity).
  destruct (Ha [] eq_refl eq_refl) as [H1 H2 _ _ H5 _].
  constructor; auto.
  - intros l q Hl [Hq Hne]. exact (H2 l q Hl Hq Hne).
  - intros e n Hm _ Ht. apply tt_entries in Hm. destruct Hm as [<-|[<-|[<-|[<-|[]]]]]; vm_compute in Ht; try discriminate; injection Ht as <-; exact Logic.I.
  - intros e q n Hm _ [Hq Hne] Ht. apply tt_entries in Hm. apply (ap_above _ _ (Ha (eloc ex_c e) ltac:(destruct Hm as [<-|[<-|[<-|[<-|[]]]]]; vm_compute; reflexivity)
      ltac:(destruct Hm as [<-|[<-|[<-|[<-|[]]]]]; vm_compute; reflexivity)) q n Hq Hne Ht).
  - intros l l' i E E'. apply tree_of_in in E, E'. cbn [fz_nodes In] in E, E'. intuition congruence.
  - discriminate.
Qed.
Definition tz_first := et_resume (folder_sink ex_c) None fz_k 1%nat.
Definition tz_ck : option (teck (stk_source et_k)) := hd_error (map fst (to_log _ _ _ tz_first)).
Definition tz_second := et_resume (folder_sink ex_c) tz_ck (to_sink _ _ _ tz_first) 0%nat.
(** Stopped in the middle of "b" and resumed. *)
Example C45_tar_folder_example :
  to_res _ _ _ tz_first = Err EStop /\ option_map (fun c => (ec_index c, option_map en_woff (ec_entry c))) tz_ck = Some (2, Some 4) /\
  (exists l, to_res _ _ _ tz_second = Ok l) /\
  map (node_at (fk_fs (to_sink _ _ _ tz_second))) [at_ ["out"; "d"]; at_ ["out"; "b"]; at_ ["out"; "c"]; at_ ["out"; "l"]; at_ ["out"; "keep"]]%string =
    [Some NDir; Some (NFile (s2b "aabbcc")); Some (NFile (s2b "hhii")); Some (NLink (s2b "b")); Some (NFile (s2b "mine"))].
Proof.
  split; [vm_compute; reflexivity|]. split; [vm_compute; reflexivity|]. split; [|vm_compute; reflexivity].
  apply is_ok. vm_compute. reflexivity.
Qed.
