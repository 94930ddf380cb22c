(** Props_loss.v -- C37, what does hold: zip extractions through power failures.
    The histories [zlife] of all theorems about zip extractions contain power failures at
    any moment ([ZlPower], [ZlPowerAll] in ZipSpec.v) that spare what [loss_spares] (LossSpec.v) says.
    Here this is spelled out for one power failure, and for the folder sink in
    terms of the file system. *)
From Verif Require Import Base Base_proofs Source Seek Decomp CodecSpec Drive Copier Sink Zip SinkSpec LossSpec Settle_proofs Loss_proofs ZipSpec Zip_proofs Zip2_proofs
  Path PathSpec Path_proofs FS FS_proofs FolderSink FSteps_proofs FSLex_proofs FolderSpec Folder_proofs FolderLaws FolderOps_proofs FolderMisc_proofs
  ExCodec ExSink ExZip ExFolder Props_zip Props_zip2 Props_folder Props_zip_folder.

(** C37. In a history of runs, from the nil checkpoint on, that were stopped, failed or were killed at any
    moment, let [c1] be one of the checkpoints saved and still valid. The power fails, and spares
    what was complete when [c1] was saved and the first WriteOffset bytes of the
    file [c1] is in. Then resuming from [c1] gives the complete and correct output. *)
Theorem C37_zip_power_loss_any_time_partial A C fuel0 pol SK (L : sink_laws SK) ms st0 st later c1 earlier st1 SV io fuel v out l :
  zarchive A C fuel0 pol L ms -> kl_inv L st0 ->
  zlife A C fuel0 pol ms L st0 false st (later ++ c1 :: earlier) ->
  kl_inv L st1 ->
  loss_spares L (zitems (firstn (Z.to_nat (ec_index c1)) ms)) (zitems (skipn (Z.to_nat (ec_index c1)) ms)) (ec_entry c1) st st1 ->
  ios_ok A pol ms io -> out = zip_resume SK C fuel0 SV (zfiles ms) io fuel (Some c1) st1 v -> zo_res _ _ _ _ out = Ok l ->
  extracted L (zitems ms) (kl_view L st0) (zo_sink _ _ _ _ out) /\ l = zlisting (zfiles ms).
Proof.
  intros HA Hi Hl I1 Hloss Hio Hout Hres.
  eapply C35_zip_resume_exact; [exact HA|exact Hi| |exact Hres].
  eapply (ZrResume A C fuel0 pol ms L st0 false SV st1 [] c1 earlier); [|exact Hio|exact Hout].
  exact (ZlPower _ _ _ _ _ _ _ _ _ _ _ _ _ Hl I1 Hloss).
Qed.
(** ... and if nothing fails any more, it does succeed. *)
Theorem C37_zip_power_loss_completes_partial A C fuel0 pol SK (L : sink_laws SK) ms :
  zarchive A C fuel0 pol L ms -> Forall (zsound C fuel0 L) ms -> existsb zencrypted ms = false ->
  exists B, forall st0 st later c1 earlier st1 SV io fuel v out,
    kl_inv L st0 -> zlife A C fuel0 pol ms L st0 false st (later ++ c1 :: earlier) -> kl_inv L st1 ->
    loss_spares L (zitems (firstn (Z.to_nat (ec_index c1)) ms)) (zitems (skipn (Z.to_nat (ec_index c1)) ms)) (ec_entry c1) st st1 ->
    ios_ok A pol ms io -> out = zip_resume SK C fuel0 SV (zfiles ms) io fuel (Some c1) st1 v ->
    kl_clean L st1 -> (forall i, io_good (io i)) -> saver_goes_on SV -> (B < fuel)%nat ->
    zo_res _ _ _ _ out = Ok (zlisting (zfiles ms)) /\ extracted L (zitems ms) (kl_view L st0) (zo_sink _ _ _ _ out).
Proof.
  intros HA Hs He. destruct (C35_zip_resume_completes A C fuel0 pol SK L ms HA Hs He) as (B & H). exists B.
  intros st0 st later c1 earlier st1 SV io fuel v out Hi Hl I1 Hloss Hio Hout Hc Hg Hsv Hf.
  eapply H; [exact Hi| |exact Hc|exact Hg|exact Hsv|exact Hf].
  eapply (ZrResume A C fuel0 pol ms L st0 false SV st1 [] c1 earlier); [|exact Hio|exact Hout].
  exact (ZlPower _ _ _ _ _ _ _ _ _ _ _ _ _ Hl I1 Hloss).
Qed.

(** ** The folder sink *)

(** The machine after a power failure: folders, symlinks and the names of files are as they
    were; file number i contains [f i]; open files are gone. *)
Definition folder_reboot (f : nat -> bytes) (orc : nat -> option fault) (k : fsink) : fsink :=
  let s := fk_fs k in
  MkFsk (MkFs (f_tree s) (fun i => MkIno (f i) (f i) (i_mode (f_ino s i))) (f_next s) (fun _ => None) 0 (f_wd s) (f_umask s) orc (f_log s))
    None (fun _ => None) 0.

(** Unharmed are the files at the locations where no entry of [rest] is, and the
    first WriteOffset bytes of the file [cur]. *)
Definition files_spared (c : fcfg) (rest : list item) (cur : option entry) (f : nat -> bytes) (s : fsys) : Prop :=
  (forall l i, f_tree s l = Some (FFile i) ->
     (forall e nd, In (e, nd) rest -> should_ignore (en_path e) = false -> eloc c e <> l) -> f i = i_data (f_ino s i)) /\
  (forall e i, cur = Some e -> should_ignore (en_path e) = false -> f_tree s (eloc c e) = Some (FFile i) ->
     firstn (Z.to_nat (en_woff e)) (f i) = firstn (Z.to_nat (en_woff e)) (i_data (f_ino s i))).

Lemma reboot_ready c S f orc k : ready c S k -> ready c S (folder_reboot f orc k).
Proof.
  intros [A1 A2 A3 A4 A5 A6 A7 A8]. constructor; cbn [folder_reboot fk_fs fk_ws f_tree f_next f_hand f_nexth]; auto. discriminate.
Qed.

Lemma reboot_spares c S Hwd Hb HS done rest cur f orc (k : fsink) :
  files_spared c rest cur f (fk_fs k) ->
  loss_spares (folder_laws c S Hwd Hb HS) done rest cur k (folder_reboot f orc k).
Proof.
  intros [F1 F2]. split; [|split].
  - intros l Hno _. change (node_at (fk_fs (folder_reboot f orc k)) l = node_at (fk_fs k) l).
    unfold node_at, folder_reboot. cbn [fk_fs f_tree f_ino i_data]. destruct (f_tree (fk_fs k) l) as [[m|t|i]|] eqn:E; try reflexivity.
    rewrite (F1 l i E); [reflexivity|]. intros e nd Hin Hk Hl. apply Hno. exists (e, nd). split; [exact Hin|].
    change (fof c e = Some l). unfold fof. rewrite Hk. exact (f_equal Some Hl).
  - intros l _ H. change (node_at (fk_fs k) l = Some NDir) in H. change (node_at (fk_fs (folder_reboot f orc k)) l = Some NDir). revert H.
    unfold node_at, folder_reboot. cbn [fk_fs f_tree f_ino i_data]. destruct (f_tree (fk_fs k) l) as [[m|t|i]|]; auto; discriminate.
  - intros e l ct He Ho _ Hct Hw. change (node_at (fk_fs k) l = Some (NFile ct)) in Hct. change (fof c e = Some l) in Ho.
    destruct (fof_some c _ _ Ho) as [Hk ->].
    change (exists ct', node_at (fk_fs (folder_reboot f orc k)) (eloc c e) = Some (NFile ct') /\ (Z.to_nat (en_woff e) <= length ct')%nat /\
       firstn (Z.to_nat (en_woff e)) ct' = firstn (Z.to_nat (en_woff e)) ct).
    revert Hct. unfold node_at, folder_reboot. cbn [fk_fs f_tree f_ino i_data]. destruct (f_tree (fk_fs k) (eloc c e)) as [[m|t|i]|] eqn:E; try discriminate.
    intros Hct. assert (ct = i_data (f_ino (fk_fs k) i)) as -> by congruence.
    exists (f i). pose proof (F2 e i He Hk E) as H. split; [reflexivity|]. split; [|exact H].
    apply (f_equal (@length _)) in H. rewrite !firstn_length in H. lia.
Qed.

Section FolderZip.
  Context (A : bytes) (C : codec) (fuel0 : nat) (pol : bool) (ms : list zmember) (c : fcfg).
  Context (Hwd : is_abs (fc_wd c) = true) (Hb : fbase c <> []) (HS : holdable c (entries_of ms)).
  Context (Hok : Forall (zm_ok A C fuel0 pol) ms).
  Notation FL := (folder_laws c (entries_of ms) Hwd Hb HS).
  Notation SK := (folder_sink c).
  Notation rest c1 := (zitems (skipn (Z.to_nat (ec_index c1)) ms)).

  Lemma life_ready k0 mem k cks : ready c (entries_of ms) k0 -> zlife A C fuel0 pol ms FL k0 mem k cks -> ready c (entries_of ms) k.
  Proof.
    intros Hr Hl. destruct (all_good A C fuel0 pol ms Hok) as (B & HB).
    apply (ready_finv c (entries_of ms)) in Hr. apply (ready_finv c (entries_of ms)).
    exact (proj1 (life_good A C fuel0 pol ms FL k0 mem B (za_valid _ _ _ _ _ _ (folder_archive A C fuel0 pol ms c Hwd Hb HS Hok)) HB Hr _ _ Hl)).
  Qed.

  Lemma power_life k0 mem k later c1 earlier f orc : ready c (entries_of ms) k0 ->
    zlife A C fuel0 pol ms FL k0 mem k (later ++ c1 :: earlier) ->
    files_spared c (rest c1) (ec_entry c1) f (fk_fs k) ->
    zlife A C fuel0 pol ms FL k0 mem (folder_reboot f orc k) (c1 :: earlier).
  Proof.
    intros Hr Hl Hf. eapply ZlPower; [exact Hl| |].
    - change (finv c (entries_of ms) (folder_reboot f orc k)). apply ready_finv. apply reboot_ready. exact (life_ready _ _ _ _ Hr Hl).
    - apply reboot_spares. exact Hf.
  Qed.

  Theorem C37_folder_power_loss_partial k0 k later c1 earlier f orc SV io fuel v out l : ready c (entries_of ms) k0 ->
    zlife A C fuel0 pol ms FL k0 false k (later ++ c1 :: earlier) ->
    files_spared c (rest c1) (ec_entry c1) f (fk_fs k) -> ios_ok A pol ms io ->
    out = zip_resume SK C fuel0 SV (zfiles ms) io fuel (Some c1) (folder_reboot f orc k) v -> zo_res _ _ _ _ out = Ok l ->
    folder_holds c (zitems ms) (fk_fs k0) (fk_fs (zo_sink _ _ _ _ out)) /\ l = zlisting (zfiles ms).
  Proof.
    intros Hr Hl Hf Hio Hout Hres.
    eapply (C35_folder_resume_exact A C fuel0 pol ms c Hwd Hb HS Hok false); [exact Hr| |exact Hres].
    eapply (ZrResume A C fuel0 pol ms FL k0 false SV _ [] c1 earlier); [|exact Hio|exact Hout].
    exact (power_life k0 false k later c1 earlier f orc Hr Hl Hf).
  Qed.
  Theorem C37_folder_power_loss_completes_partial : existsb zencrypted ms = false ->
    Forall (fun m => (zm_via C fuel0 m <> None -> zm_err m = EEof) /\
       (en_kind (zm_entry m) = EkSymlink -> is_abs (zm_data m) = false /\
          at_or_below (fbase c) (walk (removelast (eloc c (zm_entry m))) (split_slash (zm_data m))))) ms ->
    exists B, forall k0 k later c1 earlier f orc SV io fuel v out, ready c (entries_of ms) k0 ->
      zlife A C fuel0 pol ms FL k0 false k (later ++ c1 :: earlier) ->
      files_spared c (rest c1) (ec_entry c1) f (fk_fs k) -> ios_ok A pol ms io ->
      out = zip_resume SK C fuel0 SV (zfiles ms) io fuel (Some c1) (folder_reboot f orc k) v ->
      (forall i, orc i = None) -> (forall i, io_good (io i)) -> saver_goes_on SV -> (B < fuel)%nat ->
      zo_res _ _ _ _ out = Ok (zlisting (zfiles ms)) /\ folder_holds c (zitems ms) (fk_fs k0) (fk_fs (zo_sink _ _ _ _ out)).
  Proof.
    intros He Hs. destruct (C35_folder_resume_completes A C fuel0 pol ms c Hwd Hb HS Hok He Hs) as (B & H). exists B.
    intros k0 k later c1 earlier f orc SV io fuel v out Hr Hl Hf Hio Hout Horc Hg Hsv Hfu.
    eapply H; [exact Hr| | |exact Hg|exact Hsv|exact Hfu].
    - eapply (ZrResume A C fuel0 pol ms FL k0 false SV _ [] c1 earlier); [|exact Hio|exact Hout].
      exact (power_life k0 false k later c1 earlier f orc Hr Hl Hf).
    - intros i. exact (Horc i).
  Qed.
End FolderZip.

(** ** A concrete case: the run of Props_zip_folder.v into a folder, killed after "b"
    was written; its checkpoint is in the middle of "b". Then the power fails: of "b" only the
    first four bytes are left (followed by other data), and "z" has lost its content. *)
Definition pl_first := zip_resume (crashing (folder_sink ex_c)) exC exF ex_saver (zfiles ex_ms) ex_io 50 None (fz_k, Some 13%nat) (0%nat, []).
Definition pl_k : fsink := fst (zo_sink _ _ _ _ pl_first).
Definition pl_f (i : nat) : bytes :=
  if (i =? 1)%nat then s2b "aabb??" else if (i =? 3)%nat then [] else i_data (f_ino (fk_fs pl_k) i).
Definition pl_second (c1 : zeck exC exF) :=
  zip_resume (folder_sink ex_c) exC exF ex_saver (zfiles ex_ms) ex_io 50 (Some c1) (folder_reboot pl_f ok_orc pl_k) (0%nat, []).

Lemma pl_b : f_tree (fk_fs pl_k) (at_ ["out"; "b"]%string) = Some (FFile 1).
Proof. vm_compute. reflexivity. Qed.
Lemma pl_z : f_tree (fk_fs pl_k) (at_ ["out"; "z"]%string) = Some (FFile 3).
Proof. vm_compute. reflexivity. Qed.
Lemma pl_before : map (node_at (fk_fs pl_k)) [at_ ["out"; "d"; "a"]; at_ ["out"; "b"]; at_ ["out"; "z"]; at_ ["out"; "keep"]]%string =
    [Some (NFile (s2b "hello")); Some (NFile (s2b "aabbcc")); Some (NFile [zero]); Some (NFile (s2b "mine"))].
Proof. vm_compute. reflexivity. Qed.
Lemma pl_data1 : i_data (f_ino (fk_fs pl_k) 1) = s2b "aabbcc".
Proof. vm_compute. reflexivity. Qed.
Lemma single5 {A B C D E} (a a' : A) (b b' : B) (c c' : C) (d d' : D) (e e' : E) :
  (a, b, c, d, e) = (a', b', c', d', e') -> a = a' /\ b = b' /\ c = c' /\ d = d' /\ e = e'.
Proof. intros H. repeat split; congruence. Qed.
Lemma map_one {A B} (f : A -> B) x y : map f [x] = [y] -> f x = y.
Proof. intros H. exact (f_equal (hd y) H). Qed.
Lemma pl_ck : exists c1, map fst (zo_log _ _ _ _ pl_first) = [c1] /\ ec_index c1 = 2 /\
  option_map en_path (ec_entry c1) = Some (s2b "b") /\ option_map en_woff (ec_entry c1) = Some 4 /\
  zo_res _ _ _ _ (pl_second c1) = Ok (zlisting (zfiles ex_ms)) /\
  map (node_at (fk_fs (zo_sink _ _ _ _ (pl_second c1)))) [at_ ["out"; "d"]; at_ ["out"; "d"; "a"]; at_ ["out"; "b"]; at_ ["out"; "z"]; at_ ["out"; "l"]; at_ ["out"; "keep"]]%string =
    [Some NDir; Some (NFile (s2b "hello")); Some (NFile (s2b "aabbcc")); Some (NFile (s2b "q")); Some (NLink (s2b "b")); Some (NFile (s2b "mine"))].
Proof.
  assert (H1 : length (map fst (zo_log _ _ _ _ pl_first)) = 1%nat) by (vm_compute; reflexivity).
  assert (H2 : map (fun c1 : zeck exC exF => (ec_index c1, option_map en_path (ec_entry c1), option_map en_woff (ec_entry c1), zo_res _ _ _ _ (pl_second c1),
     map (node_at (fk_fs (zo_sink _ _ _ _ (pl_second c1)))) [at_ ["out"; "d"]; at_ ["out"; "d"; "a"]; at_ ["out"; "b"]; at_ ["out"; "z"]; at_ ["out"; "l"]; at_ ["out"; "keep"]]%string))
     (map fst (zo_log _ _ _ _ pl_first)) =
     [(2, Some (s2b "b"), Some 4, Ok (zlisting (zfiles ex_ms)),
       [Some NDir; Some (NFile (s2b "hello")); Some (NFile (s2b "aabbcc")); Some (NFile (s2b "q")); Some (NLink (s2b "b")); Some (NFile (s2b "mine"))])]) by (vm_compute; reflexivity).
  destruct (map fst (zo_log _ _ _ _ pl_first)) as [|c1 [|]]; try discriminate H1.
  exists c1. split; [reflexivity|]. apply map_one in H2. cbv beta in H2. exact (single5 _ _ _ _ _ _ _ _ _ _ H2).
Qed.

Lemma ex_base : fbase ex_c <> [].
Proof. vm_compute. intros H. discriminate H. Qed.
Lemma pl_life_of c1 n out : out = zip_resume (crashing (folder_sink ex_c)) exC exF ex_saver (zfiles ex_ms) ex_io 50 None (fz_k, n) (0%nat, []) ->
  map fst (zo_log _ _ _ _ out) = [c1] ->
  zlife exA exC exF false ex_ms (folder_laws ex_c (entries_of ex_ms) eq_refl ex_base fz_holdable) fz_k false (fst (zo_sink _ _ _ _ out)) ([] ++ c1 :: []).
Proof.
  intros Ho H. pose proof (ZlFresh exA exC exF false ex_ms (folder_laws ex_c (entries_of ex_ms) eq_refl ex_base fz_holdable) fz_k false fz_k [] ex_saver ex_io 50 (0%nat, []) n out
          (ZlStart _ _ _ _ _ _ _ _) ex_ios Ho) as Hl.
  rewrite H in Hl. exact Hl.
Qed.
Lemma pl_first_eq : pl_first = zip_resume (crashing (folder_sink ex_c)) exC exF ex_saver (zfiles ex_ms) ex_io 50 None (fz_k, Some 13%nat) (0%nat, []).
Proof. reflexivity. Qed.
Lemma pl_life c1 : map fst (zo_log _ _ _ _ pl_first) = [c1] ->
  zlife exA exC exF false ex_ms (folder_laws ex_c (entries_of ex_ms) eq_refl ex_base fz_holdable) fz_k false pl_k ([] ++ c1 :: []).
Proof. exact (pl_life_of c1 (Some 13%nat) pl_first pl_first_eq). Qed.

Lemma pl_spared c1 : map fst (zo_log _ _ _ _ pl_first) = [c1] -> ec_index c1 = 2 ->
  option_map en_path (ec_entry c1) = Some (s2b "b") -> option_map en_woff (ec_entry c1) = Some 4 ->
  files_spared ex_c (zitems (skipn (Z.to_nat (ec_index c1)) ex_ms)) (ec_entry c1) pl_f (fk_fs pl_k).
Proof.
  intros Hc Hi Hp Hw. rewrite Hi.
  pose proof (life_ready exA exC exF false ex_ms ex_c eq_refl ex_base fz_holdable ex_zm_ok fz_k false pl_k _ fz_ready (pl_life c1 Hc)) as [_ _ _ _ _ Hhard _ _].
  split.
  - intros l i Ht Hno. unfold pl_f. destruct (Nat.eqb_spec i 1) as [->|H1]; [exfalso|destruct (Nat.eqb_spec i 3) as [->|H3]; [exfalso|reflexivity]].
    + pose proof (Hhard _ _ _ Ht pl_b) as ->. apply (Hno (zm_entry ex_m2) (zm_node ex_m2)); [left; reflexivity|reflexivity|vm_compute; reflexivity].
    + pose proof (Hhard _ _ _ Ht pl_z) as ->. apply (Hno (zm_entry ex_m3) (zm_node ex_m3)); [right; left; reflexivity|reflexivity|vm_compute; reflexivity].
  - intros e i He _ Ht. rewrite He in Hp, Hw. cbn [option_map] in Hp, Hw. injection Hw as Hw. injection Hp as Hp.
    assert (Hl : eloc ex_c e = at_ ["out"; "b"]%string).
    { transitivity (eloc ex_c (zm_entry ex_m2)); [apply eloc_path; exact Hp|vm_compute; reflexivity]. }
    rewrite Hl, pl_b in Ht. injection Ht as <-. rewrite pl_data1, Hw. vm_compute. reflexivity.
Qed.

(** The file "b" exists before (Props_zip_folder.v: an older and longer one). *)
Example C37_folder_example : exists c1,
  zlife exA exC exF false ex_ms (folder_laws ex_c (entries_of ex_ms) eq_refl ex_base fz_holdable) fz_k false pl_k ([] ++ c1 :: []) /\
  files_spared ex_c (zitems (skipn (Z.to_nat (ec_index c1)) ex_ms)) (ec_entry c1) pl_f (fk_fs pl_k) /\
  map (node_at (fk_fs pl_k)) [at_ ["out"; "b"]; at_ ["out"; "z"]]%string = [Some (NFile (s2b "aabbcc")); Some (NFile [zero])] /\
  map (node_at (fk_fs (folder_reboot pl_f ok_orc pl_k))) [at_ ["out"; "b"]; at_ ["out"; "z"]]%string = [Some (NFile (s2b "aabb??")); Some (NFile [])] /\
  zo_res _ _ _ _ (pl_second c1) = Ok (zlisting (zfiles ex_ms)) /\
  map (node_at (fk_fs (zo_sink _ _ _ _ (pl_second c1)))) [at_ ["out"; "d"]; at_ ["out"; "d"; "a"]; at_ ["out"; "b"]; at_ ["out"; "z"]; at_ ["out"; "l"]; at_ ["out"; "keep"]]%string =
    [Some NDir; Some (NFile (s2b "hello")); Some (NFile (s2b "aabbcc")); Some (NFile (s2b "q")); Some (NLink (s2b "b")); Some (NFile (s2b "mine"))].
Proof.
  destruct pl_ck as (c1 & H1 & H2 & H3 & H4 & H5 & H6). exists c1. split; [exact (pl_life c1 H1)|].
  split; [exact (pl_spared c1 H1 H2 H3 H4)|]. split; [vm_compute; reflexivity|]. split; [vm_compute; reflexivity|]. split; [exact H5|exact H6].
Qed.
