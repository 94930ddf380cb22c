(** Props_zip_folder.v -- C34-C37 and C43 for the zip extractor writing to a
    FolderSink: the theorems of Props_zip.v with [folder_laws] (FolderLaws.v), stated in
    terms of the file system. *)
From Verif Require Import Base Base_proofs Source Seek Decomp CodecSpec Drive Copier Sink Zip SinkSpec ZipSpec Settle_proofs
  Path PathSpec Path_proofs FS FS_proofs FolderSink FSteps_proofs FSLex_proofs FolderSpec Folder_proofs FolderLaws FolderOps_proofs FolderMisc_proofs ExCodec ExSink ExZip ExFolder Props_zip Props_zip2 Props_folder.

(** The folder holds [items]: at the location of each entry (not ignored, and not followed by another
    one for the same location) there is what the entry stands for; everything above an
    entry is a folder, or what another entry says; everything else is as before. *)
Definition folder_holds (c : fcfg) (items : list item) (s0 s : fsys) : Prop :=
  let kept e := should_ignore (en_path e) = false in
  (forall i e nd, nth_error items i = Some (e, nd) -> kept e ->
     (forall j e' nd', (i < j)%nat -> nth_error items j = Some (e', nd') -> kept e' -> eloc c e' <> eloc c e) ->
     node_at s (eloc c e) = Some nd) /\
  (forall e nd l, In (e, nd) items -> kept e -> above l (eloc c e) ->
     (forall e' nd', In (e', nd') items -> kept e' -> eloc c e' <> l) -> node_at s l = Some NDir) /\
  (forall l, (forall e nd, In (e, nd) items -> kept e -> ~ at_or_below l (eloc c e)) -> node_at s l = node_at s0 l).

(** The entries of an archive. *)
Definition entries_of (ms : list zmember) (e : entry) : Prop := exists m, In m ms /\ e = zm_entry m.

Lemma folder_holds_extracted c S Hwd Hb HS items (s0 : fsys) (k : fsink) :
  extracted (folder_laws c S Hwd Hb HS) items (node_at s0) k -> folder_holds c items s0 (fk_fs k).
Proof.
  intros (E1 & E2 & E3). unfold folder_holds. cbv zeta. change (kl_view (folder_laws c S Hwd Hb HS) k) with (node_at (fk_fs k)) in *.
  assert (Hof : forall e, should_ignore (en_path e) = false -> fof c e = Some (eloc c e)) by (intros e H; unfold fof; rewrite H; reflexivity).
  assert (Hof' : forall e l, fof c e = Some l -> should_ignore (en_path e) = false /\ l = eloc c e) by (intros e l H; apply (fof_some c); exact H).
  splits.
  - intros i e nd Hn Hk Hl. apply (E1 i e nd (eloc c e) Hn (Hof e Hk)). intros j [e' nd'] Hj Hn' Ho. change (fof c e' = Some (eloc c e)) in Ho.
    destruct (Hof' _ _ Ho) as [Hk' Hl']. apply (Hl j e' nd' Hj Hn' Hk'). congruence.
  - intros e nd l Hin Hk Ha Hno. apply (E2 l).
    + exists (e, nd), (eloc c e). split; [exact Hin|]. split; [exact (Hof e Hk)|exact Ha].
    + intros ([e' nd'] & Hin' & Ho). change (fof c e' = Some l) in Ho. destruct (Hof' _ _ Ho) as [Hk' Hl']. apply (Hno e' nd' Hin' Hk'). auto.
  - intros l Hno. apply E3.
    + intros ([e nd] & Hin & Ho). change (fof c e = Some l) in Ho. destruct (Hof' _ _ Ho) as [Hk Hl]. apply (Hno e nd Hin Hk). subst l. exists []. rewrite app_nil_r. reflexivity.
    + intros ([e nd] & l1 & Hin & Ho & Ha). change (fof c e = Some l1) in Ho. destruct (Hof' _ _ Ho) as [Hk Hl]. apply (Hno e nd Hin Hk). subst l1. exact (proj1 Ha).
Qed.

Section FolderZip.
  Context (A : bytes) (C : codec) (fuel0 : nat) (pol : bool) (ms : list zmember) (c : fcfg).
  Context (Hwd : is_abs (fc_wd c) = true) (Hb : fbase c <> []) (HS : holdable c (entries_of ms)).
  Context (Hok : Forall (zm_ok A C fuel0 pol) ms).
  Notation FL := (folder_laws c (entries_of ms) Hwd Hb HS).
  Notation SK := (folder_sink c).

  Lemma folder_archive : zarchive A C fuel0 pol FL ms.
  Proof.
    split; [exact Hok|]. apply storable_any; [intros; exact Logic.I|]. intros it Hit. apply in_map_iff in Hit. destruct Hit as (m & <- & Hm). exists (zm_entry m). split; [exists m; auto|]. auto.
  Qed.

  (** C34 *)
  Theorem C34_folder_exact SV k io fuel v out l : ready c (entries_of ms) k -> ios_ok A pol ms io ->
    out = zip_resume SK C fuel0 SV (zfiles ms) io fuel None k v -> zo_res _ _ _ _ out = Ok l ->
    folder_holds c (zitems ms) (fk_fs k) (fk_fs (zo_sink _ _ _ _ out)) /\ l = zlisting (zfiles ms).
  Proof.
    intros Hr Hio Hout Hres. apply (ready_finv c (entries_of ms)) in Hr.
    destruct (C35_zip_resume_exact A C fuel0 pol SK FL ms k SV None io fuel k out l folder_archive Hr) as [H1 H2]; auto.
    - eapply ZrFresh; [apply ZlStart|exact Hio|exact Hout].
    - split; [eapply folder_holds_extracted; exact H1|exact H2].
  Qed.

  (** ... and nothing but failures of the file system, the reader or the save
      consumer, encrypted, damaged or unacceptable members can prevent it. *)
  Theorem C34_folder_completes : existsb zencrypted ms = false ->
    Forall (fun m => (zm_via C fuel0 m <> None -> zm_err m = EEof) /\
       (en_kind (zm_entry m) = EkSymlink -> is_abs (zm_data m) = false /\
          at_or_below (fbase c) (walk (removelast (eloc c (zm_entry m))) (split_slash (zm_data m))))) ms ->
    exists B, forall SV k io fuel v out, ready c (entries_of ms) k -> no_fault (fk_fs k) -> ios_ok A pol ms io -> (forall i, io_good (io i)) ->
      saver_goes_on SV -> (B < fuel)%nat -> out = zip_resume SK C fuel0 SV (zfiles ms) io fuel None k v ->
      zo_res _ _ _ _ out = Ok (zlisting (zfiles ms)) /\ folder_holds c (zitems ms) (fk_fs k) (fk_fs (zo_sink _ _ _ _ out)).
  Proof.
    intros He Hs. destruct (C34_zip_completes A C fuel0 pol SK FL ms folder_archive) as (B & H); auto.
    exists B. intros SV k io fuel v out Hr Hc Hio Hg Hsv Hf Hout. apply (ready_finv c (entries_of ms)) in Hr.
    destruct (H SV k io fuel v out Hr Hc Hio Hg Hsv Hf Hout) as [H1 H2]. split; [exact H1|]. eapply folder_holds_extracted; exact H2.
  Qed.

  (** C35, C43: whatever happened before (runs stopped, failed or killed; with
      [mem], runs from the in-memory checkpoint of a failed one). *)
  Theorem C35_folder_resume_exact mem SV k0 ck io fuel k out l : ready c (entries_of ms) k0 ->
    zrun A C fuel0 pol ms FL k0 mem SV ck io fuel k out -> zo_res _ _ _ _ out = Ok l ->
    folder_holds c (zitems ms) (fk_fs k0) (fk_fs (zo_sink _ _ _ _ out)) /\ l = zlisting (zfiles ms).
  Proof.
    intros Hr Hrun Hres. apply (ready_finv c (entries_of ms)) in Hr.
    assert (H : extracted FL (zitems ms) (kl_view FL k0) (zo_sink _ _ _ _ out) /\ l = zlisting (zfiles ms)).
    { destruct mem; [eapply C43_zip_retry_same_object|eapply C35_zip_resume_exact]; eauto using folder_archive. }
    destruct H as [H1 H2]. split; [eapply folder_holds_extracted; exact H1|exact H2].
  Qed.
  Theorem C35_folder_resume_completes : existsb zencrypted ms = false ->
    Forall (fun m => (zm_via C fuel0 m <> None -> zm_err m = EEof) /\
       (en_kind (zm_entry m) = EkSymlink -> is_abs (zm_data m) = false /\
          at_or_below (fbase c) (walk (removelast (eloc c (zm_entry m))) (split_slash (zm_data m))))) ms ->
    exists B, forall SV k0 ck io fuel k out, ready c (entries_of ms) k0 -> zrun A C fuel0 pol ms FL k0 false SV ck io fuel k out ->
      no_fault (fk_fs k) -> (forall i, io_good (io i)) -> saver_goes_on SV -> (B < fuel)%nat ->
      zo_res _ _ _ _ out = Ok (zlisting (zfiles ms)) /\ folder_holds c (zitems ms) (fk_fs k0) (fk_fs (zo_sink _ _ _ _ out)).
  Proof.
    intros He Hs. destruct (C35_zip_resume_completes A C fuel0 pol SK FL ms folder_archive) as (B & H); auto.
    exists B. intros SV k0 ck io fuel k out Hr Hrun Hc Hg Hsv Hf. apply (ready_finv c (entries_of ms)) in Hr.
    destruct (H k0 SV ck io fuel k out Hr Hrun Hc Hg Hsv Hf) as [H1 H2]. split; [exact H1|]. eapply folder_holds_extracted; exact H2.
  Qed.

  (** C36 *)
  Theorem C36_folder_checkpoint_synced mem SV k0 ck io fuel k out : ready c (entries_of ms) k0 ->
    zrun A C fuel0 pol ms FL k0 mem SV ck io fuel k out ->
    forall c1 s, In (c1, s) (zo_log _ _ _ _ out) ->
    exists i m w, ec_index c1 = Z.of_nat i /\ nth_error ms i = Some m /\ en_kind (zm_entry m) = EkFile /\
      ec_entry c1 = Some (set_woff (zm_entry m) (Z.of_nat w)) /\ (w <= length (zm_data m))%nat /\
      (should_ignore (en_path (zm_entry m)) = false ->
       exists content, durable_at (fk_fs s) (eloc c (zm_entry m)) = Some (NFile content) /\ length content = w /\
         ((forall j m', (i < j)%nat -> nth_error ms j = Some m' -> should_ignore (en_path (zm_entry m')) = false ->
             eloc c (zm_entry m') <> eloc c (zm_entry m)) -> content = firstn w (zm_data m))).
  Proof.
    intros Hr Hrun c1 s Hin. apply (ready_finv c (entries_of ms)) in Hr.
    assert (Hd : dur_ok FL (fun k : fsink => durable_at (fk_fs k))).
    { intros st w l off st' Hi Ho Hsync. destruct (fl_sync c (entries_of ms) Hwd st w (Some l) off st' None Hi Ho Hsync) as (_ & _ & _ & _ & H). exact (H eq_refl l eq_refl). }
    destruct (C36_zip_checkpoint_synced A C fuel0 pol SK FL ms k0 mem SV _ ck io fuel k out folder_archive Hr Hd Hrun c1 s Hin) as (i & m & w & R1 & R2 & R3 & R4 & R5 & R6).
    exists i, m, w. splits; auto. intros Hk.
    destruct (R6 (eloc c (zm_entry m))) as (ct & D1 & D2 & D3).
    { change (fof c (zm_entry m) = Some (eloc c (zm_entry m))). unfold fof. rewrite Hk. reflexivity. }
    exists ct. splits; auto. intros Hl. apply D3. intros j it Hj Hn Ho.
    unfold zitems in Hn. rewrite nth_error_map in Hn. destruct (nth_error ms j) as [m'|] eqn:Em; [|discriminate]. injection Hn as <-.
    destruct (fof_some c _ _ Ho) as [Hk' Hl']. apply (Hl j m' Hj Em Hk'). auto.
  Qed.
End FolderZip.

(** ** A concrete case: ExZip's archive into "/out" of ExFolder's file system. *)
Definition fz_nodes : list (loc * fnode) := [ (at_ [], FDir 493); (at_ ["out"], FDir 493); (at_ ["out"; "keep"], FFile 0); (at_ ["out"; "b"], FFile 1) ]%string.
Definition fz_files : list (bytes * Z) := [ (s2b "mine", 420); (s2b "an older and longer b", 420) ].
Definition fz_k : fsink := ex_sink fz_nodes fz_files ok_orc.

Lemma fz_holdable : holdable ex_c (entries_of ex_ms).
Proof.
  constructor.
  - intros e (m & Hm & ->) _. apply at_or_belowb_spec. destruct Hm as [<-|[<-|[<-|[<-|[<-|[]]]]]]; vm_compute; reflexivity.
  - intros e e' (m & Hm & ->) (m' & Hm' & ->) _ _ H.
    destruct Hm as [<-|[<-|[<-|[<-|[<-|[]]]]]]; destruct Hm' as [<-|[<-|[<-|[<-|[<-|[]]]]]]; vm_compute in H |- *; congruence.
  - intros e e' (m & Hm & ->) (m' & Hm' & ->) _ _ [H Hne]. apply at_or_belowb_spec in H.
    destruct Hm as [<-|[<-|[<-|[<-|[<-|[]]]]]]; destruct Hm' as [<-|[<-|[<-|[<-|[<-|[]]]]]]; vm_compute in H, Hne |- *; congruence.
Qed.
Lemma fz_ready : ready ex_c (entries_of ex_ms) fz_k.
Proof.
  assert (Ha : forall l, above_b fz_nodes l = true -> hard_b fz_nodes l = true -> approachable fz_k l)
    by (intros l H1 H2; apply ex_approachable; auto; vm_compute; reflexivity).
  destruct (Ha [] eq_refl eq_refl) as [H1 H2 _ _ H5 _].
  constructor; auto.
  - intros l q Hl [Hq Hne]. exact (H2 l q Hl Hq Hne).
  - intros e n (m & Hm & ->) _ Ht. destruct Hm as [<-|[<-|[<-|[<-|[<-|[]]]]]]; vm_compute in Ht; try discriminate; injection Ht as <-; exact Logic.I.
  - intros e q n (m & Hm & ->) _ [Hq Hne] Ht. apply (ap_above _ _ (Ha (eloc ex_c (zm_entry m)) ltac:(destruct Hm as [<-|[<-|[<-|[<-|[<-|[]]]]]]; vm_compute; reflexivity)
      ltac:(destruct Hm as [<-|[<-|[<-|[<-|[<-|[]]]]]]; vm_compute; reflexivity)) q n Hq Hne Ht).
  - intros l l' i E E'. apply tree_of_in in E, E'. cbn [fz_nodes In] in E, E'. intuition congruence.
  - discriminate.
Qed.

Definition fz_first := zip_resume (folder_sink ex_c) exC exF ex_saver (zfiles ex_ms) ex_io 50 None fz_k (1%nat, []).
Definition fz_ck : option (zeck exC exF) := hd_error (map fst (zo_log _ _ _ _ fz_first)).
Definition fz_second := zip_resume (folder_sink ex_c) exC exF ex_saver (zfiles ex_ms) ex_io 50 fz_ck (zo_sink _ _ _ _ fz_first) (0%nat, []).
(** Stopped in the middle of "b" and resumed. *)
Example C35_folder_example :
  zo_res _ _ _ _ fz_first = Err EStop /\ option_map (fun c => (ec_index c, option_map en_woff (ec_entry c))) fz_ck = Some (2, Some 4) /\
  zo_res _ _ _ _ fz_second = Ok (zlisting (zfiles ex_ms)) /\
  map (node_at (fk_fs (zo_sink _ _ _ _ fz_second))) [at_ ["out"; "d"]; at_ ["out"; "d"; "a"]; at_ ["out"; "b"]; at_ ["out"; "z"]; at_ ["out"; "l"]; at_ ["out"; "keep"]]%string =
    [Some NDir; Some (NFile (s2b "hello")); Some (NFile (s2b "aabbcc")); Some (NFile (s2b "q")); Some (NLink (s2b "b")); Some (NFile (s2b "mine"))].
Proof. splits; vm_compute; reflexivity. Qed.

(** C37 for FolderSink. After a power loss files contain what was synced; the
    file system and the sink are opened anew. *)
Definition folder_power_loss (k : fsink) : fsink :=
  let s := fk_fs k in
  MkFsk (MkFs (f_tree s) (fun i => let n := f_ino s i in MkIno (i_dur n) (i_dur n) (i_mode n)) (f_next s) (fun _ => None) 0 (f_wd s) (f_umask s) (f_orc s) (f_log s))
    None (fun _ => None) 0.
Theorem C37_folder_power_loss_refuted :
  exists (ck : zeck exC exF) (s : fsink) out,
    Forall (zm_ok exA exC exF false) ex_ms /\ holdable ex_c (entries_of ex_ms) /\ ready ex_c (entries_of ex_ms) fz_k /\
    In (ck, s) (zo_log _ _ _ _ fz_first) /\
    out = zip_resume (folder_sink ex_c) exC exF ex_saver (zfiles ex_ms) ex_io 50 (Some ck) (folder_power_loss s) (0%nat, []) /\
    zo_res _ _ _ _ out = Ok (zlisting (zfiles ex_ms)) /\
    node_at (fk_fs (zo_sink _ _ _ _ out)) (at_ ["out"; "d"; "a"]%string) = Some (NFile []) /\
    ~ folder_holds ex_c (zitems ex_ms) (fk_fs fz_k) (fk_fs (zo_sink _ _ _ _ out)).
Proof.
  destruct (zo_log _ _ _ _ fz_first) as [|[ck s] rest] eqn:Hlog.
  { assert (H : length (zo_log _ _ _ _ fz_first) = 1%nat) by (vm_compute; reflexivity). rewrite Hlog in H. discriminate. }
  assert (H : forall P : option ((zeck exC exF * fsink)%type) -> Prop, P (hd_error (zo_log _ _ _ _ fz_first)) -> P (Some (ck, s))).
  { rewrite Hlog. auto. }
  assert (Hw : node_at (fk_fs (zo_sink _ _ _ _ (zip_resume (folder_sink ex_c) exC exF ex_saver (zfiles ex_ms) ex_io 50 (Some ck) (folder_power_loss s) (0%nat, [])))) (at_ ["out"; "d"; "a"]%string) = Some (NFile [])).
  { apply (H (fun o => match o with Some (ck, s) =>
      node_at (fk_fs (zo_sink _ _ _ _ (zip_resume (folder_sink ex_c) exC exF ex_saver (zfiles ex_ms) ex_io 50 (Some ck) (folder_power_loss s) (0%nat, [])))) (at_ ["out"; "d"; "a"]%string) = Some (NFile []) | None => False end)).
    vm_compute. reflexivity. }
  exists ck, s. eexists. splits.
  - exact ex_zm_ok.
  - exact fz_holdable.
  - exact fz_ready.
  - left. reflexivity.
  - reflexivity.
  - apply (H (fun o => match o with Some (ck, s) =>
      zo_res _ _ _ _ (zip_resume (folder_sink ex_c) exC exF ex_saver (zfiles ex_ms) ex_io 50 (Some ck) (folder_power_loss s) (0%nat, [])) = Ok (zlisting (zfiles ex_ms)) | None => False end)).
    vm_compute. reflexivity.
  - exact Hw.
  - intros (Hx & _). specialize (Hx 1%nat (zm_entry ex_m1) (NFile (s2b "hello")) eq_refl eq_refl).
    change (eloc ex_c (zm_entry ex_m1)) with (at_ ["out"; "d"; "a"]%string) in Hx. rewrite Hw in Hx.
    assert (Some (NFile []) = Some (NFile (s2b "hello"))); [|discriminate]. apply Hx.
    intros j e' nd' Hj Hn _. do 5 (destruct j as [|j]; [try lia; injection Hn as <- <-; vm_compute; discriminate|]). destruct j; discriminate.
Qed.
