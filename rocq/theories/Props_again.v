(** Props_again.v -- property C66: extract, stop at any checkpoint, resume with
    a new extractor, as often as one likes (the loop [zip_again] / [tar_again] of Again.v,
    for archives as in Props_zip.v and Props_tar.v). *)
From Verif Require Import Base Base_proofs Source Contract Seek Decomp CodecSpec Drive SpoilSpec Stack_proofs Copier Sink SinkSpec Zip ZipSpec
  Path PathSpec FS FolderSink FolderSpec FolderLaws FolderOps_proofs
  Settle_proofs Zip2_proofs Tar TarSpec Tar2_proofs Again Again_proofs Again2_proofs
  ExCodec ExSink ExZip ExTar ExFolder Props_zip_folder Props_tar_folder.
From Coq Require Import List.

(** The bytes of all the members of an archive. *)
Definition zbytes (ms : list zmember) : nat := list_sum (map (fun m => length (zm_data m)) ms).

Section Zip.
  Context (A : bytes) (C : codec) (fuel0 : nat) (pol : bool) (SK : sink) (L : sink_laws SK) (ms : list zmember).
  Context (HA : zarchive A C fuel0 pol L ms).
  Notation again SV io fuel left st v := (zip_again SK C fuel0 SV (zfiles ms) io fuel left 0 None st v).

  Lemma zip_valid : storable L (zitems ms).
  Proof. exact (za_valid _ _ _ _ _ _ HA). Qed.
  Lemma outside_refl (items : list item) (st : k_st SK) : outside L items (kl_view L st) st.
  Proof. unfold outside. auto. Qed.

  (** However often the save consumer stops the extraction, and whatever
      fails: if the last run succeeds, its sink holds the archive. *)
  Theorem C66_zip_safe SV st io fuel left v n out : kl_inv L st -> (forall k, ios_ok A pol ms (io k)) ->
    again SV io fuel left st v = Some (n, out) ->
    (forall l, zo_res _ _ _ _ out = Ok l -> l = zlisting (zfiles ms) /\ extracted L (zitems ms) (kl_view L st) (zo_sink _ _ _ _ out)) /\
    zo_res _ _ _ _ out <> Panic.
  Proof.
    intros Hi Hio H. destruct (all_good A C fuel0 pol ms (za_ok _ _ _ _ _ _ HA)) as (B & HB).
    exact (again_safe A C fuel0 pol ms L SV (kl_view L st) B zip_valid HB io fuel (fun k i m Hn => Hio k i m Hn) left 0 None st v n out Hi
      (outside_refl _ _) Logic.I H).
  Qed.

  (** If nothing fails it does succeed, after at most as many resumes as there
      are bytes in the archive: every stop leaves a checkpoint further on. *)
  Theorem C66_zip_stop_resume : Forall (zsound C fuel0 L) ms -> existsb zencrypted ms = false ->
    exists B, forall SV st io fuel left v, kl_inv L st -> kl_clean L st ->
      (forall k, ios_ok A pol ms (io k)) -> (forall k i, io_good (io k i)) -> saver_noerr SV -> (B < fuel)%nat -> (zbytes ms <= left)%nat ->
      exists n out, again SV io fuel left st v = Some (n, out) /\ (n <= zbytes ms)%nat /\ (saver_goes_on SV -> n = 0%nat) /\
        zo_res _ _ _ _ out = Ok (zlisting (zfiles ms)) /\ extracted L (zitems ms) (kl_view L st) (zo_sink _ _ _ _ out).
  Proof.
    intros Hs He. destruct (all_good A C fuel0 pol ms (za_ok _ _ _ _ _ _ HA)) as (B & HB). exists B.
    intros SV st io fuel left v Hi Hc Hio Hg Hsv Hf Hl.
    destruct (again_ends A C fuel0 pol ms L SV (kl_view L st) B zip_valid HB io fuel (fun k i m Hn => Hio k i m Hn) Hg Hsv Hf Hs He left 0 None st v Hi
      (outside_refl _ _) Hc Logic.I) as (n & out & E1 & E2 & E3 & E4); [exact Hl|].
    exists n, out. splits; auto.
    - unfold zbytes. cbn [crank] in E2. change (list_sum (map len ms)) with (zbytes ms) in E2. unfold zbytes in E2. lia.
    - destruct (C66_zip_safe SV st io fuel left v n out Hi Hio E1) as [H _]. exact (proj2 (H _ E4)).
  Qed.
End Zip.

Section Tar.
  Context (pol : bool) (data : bytes) (start size : Z) (k : stk) (D : bytes) (tm : gerr) (F : tfmt) (N : nat).
  Context (ms : list tmember) (ok : bool) (SK : sink) (L : sink_laws SK).
  Context (HA : tarchive pol data start size k D tm F N ms ok L).
  Notation again SV rs fuel left st v := (tar_again SK F (stk_source k) SV (fun j => tsrc start size k (rs j)) fuel left 0 None st v).

  Theorem C66_tar_safe (SV : saver (s_ck (stk_source k)) tstate) st rs fuel left v n out : kl_inv L st -> (forall j, rs_ok pol data (rs j)) ->
    again SV rs fuel left st v = Some (n, out) ->
    (forall l, to_res _ _ _ out = Ok l -> l = tfiles L ms /\ ok = true /\ extracted L (titems ms) (kl_view L st) (to_sink _ _ _ out)) /\
    to_res _ _ _ out <> Panic.
  Proof.
    intros Hi Hr H.
    destruct (ta_laws _ _ _ _ _ _ _ _ _ _ _ _ HA) as (LL & Hlate & Hwf & Hgd & Hqt & HSp).
    exact (tar_again_safe pol data start size k D tm F N ms ok L (kl_view L st) LL SV Hwf Hqt Hgd HSp
      (ta_items _ _ _ _ _ _ _ _ _ _ _ _ HA) (ta_layout _ _ _ _ _ _ _ _ _ _ _ _ HA) Hlate rs fuel Hr left 0 None st v n out Hi
      (outside_refl _ _ _ _) Logic.I H).
  Qed.

  Theorem C66_tar_stop_resume : tm = EEof -> ok = true -> tsound L ms ->
    exists B, forall (SV : saver (s_ck (stk_source k)) tstate) st rs fuel left v, kl_inv L st -> kl_clean L st ->
      (forall j, rs_ok pol data (rs j)) -> (forall j, rs_good (rs j)) -> saver_noerr SV -> (B < fuel)%nat -> (length D <= left)%nat ->
      exists n out, again SV rs fuel left st v = Some (n, out) /\ (n <= length D)%nat /\ (saver_goes_on SV -> n = 0%nat) /\
        to_res _ _ _ out = Ok (tfiles L ms) /\ extracted L (titems ms) (kl_view L st) (to_sink _ _ _ out).
  Proof.
    intros Ht Hok Hs.
    destruct (ta_laws _ _ _ _ _ _ _ _ _ _ _ _ HA) as (LL & Hlate & Hwf & Hgd & Hqt & HSp).
    exists (lw_bound LL + N + length ms + 2)%nat.
    intros SV st rs fuel left v Hi Hc Hr Hg Hsv Hf Hl.
    destruct (tar_again_ends pol data start size k D tm F N ms ok L (kl_view L st) LL SV Hwf Hqt Hgd HSp
      (ta_items _ _ _ _ _ _ _ _ _ _ _ _ HA) (ta_layout _ _ _ _ _ _ _ _ _ _ _ _ HA) Hlate rs fuel Hr Hg Hsv Ht Hok Hs Hf left 0 None st v Hi
      (outside_refl _ _ _ _) Hc Logic.I) as (n & out & E1 & E2 & E3 & l & E4); [exact Hl|].
    destruct (C66_tar_safe SV st rs fuel left v n out Hi Hr E1) as [H _]. destruct (H l E4) as (-> & _ & H3).
    exists n, out. splits; auto. cbn [tcrank] in E2. lia.
  Qed.
End Tar.

(** ** Into a folder *)
Theorem C66_zip_folder A C fuel0 pol ms c (Hwd : is_abs (fc_wd c) = true) (Hb : fbase c <> []) (HS : holdable c (entries_of ms)) :
  Forall (zm_ok A C fuel0 pol) ms -> existsb zencrypted ms = false ->
  Forall (fun m => (zm_via C fuel0 m <> None -> zm_err m = EEof) /\
     (en_kind (zm_entry m) = EkSymlink -> is_abs (zm_data m) = false /\
        at_or_below (fbase c) (walk (removelast (eloc c (zm_entry m))) (split_slash (zm_data m))))) ms ->
  exists B, forall SV k io fuel left v, ready c (entries_of ms) k -> no_fault (fk_fs k) ->
    (forall j, ios_ok A pol ms (io j)) -> (forall j i, io_good (io j i)) -> saver_noerr SV -> (B < fuel)%nat -> (zbytes ms <= left)%nat ->
    exists n out, zip_again (folder_sink c) C fuel0 SV (zfiles ms) io fuel left 0 None k v = Some (n, out) /\ (n <= zbytes ms)%nat /\
      zo_res _ _ _ _ out = Ok (zlisting (zfiles ms)) /\ folder_holds c (zitems ms) (fk_fs k) (fk_fs (zo_sink _ _ _ _ out)).
Proof.
  intros Hok He Hs.
  destruct (C66_zip_stop_resume A C fuel0 pol (folder_sink c) (folder_laws c (entries_of ms) Hwd Hb HS) ms
    (folder_archive A C fuel0 pol ms c Hwd Hb HS Hok)) as (B & H); auto.
  exists B. intros SV k io fuel left v Hr Hc Hio Hg Hsv Hf Hl. apply (ready_finv c (entries_of ms)) in Hr.
  destruct (H SV k io fuel left v Hr Hc Hio Hg Hsv Hf Hl) as (n & out & E1 & E2 & _ & E4 & E5).
  exists n, out. splits; auto. eapply folder_holds_extracted; exact E5.
Qed.

Theorem C66_tar_folder pol data start size k D tm F N ms ok c (Hwd : is_abs (fc_wd c) = true) (Hb : fbase c <> []) (HS : holdable c (tentries_of ms)) :
  (exists b byt p, stk_den pol data start size k D tm b byt p false) -> tlayout F D tm N 0 0 ms ok -> tm = EEof -> ok = true ->
  (forall e t, In (e, NLink t) (titems ms) -> is_abs t = false /\ at_or_below (fbase c) (walk (removelast (eloc c e)) (split_slash t))) ->
  exists B, forall (SV : saver (s_ck (stk_source k)) tstate) st rs fuel left v, ready c (tentries_of ms) st -> no_fault (fk_fs st) ->
    (forall j, rs_ok pol data (rs j)) -> (forall j, rs_good (rs j)) -> saver_noerr SV -> (B < fuel)%nat -> (length D <= left)%nat ->
    exists n out l, tar_again (folder_sink c) F (stk_source k) SV (fun j => tsrc start size k (rs j)) fuel left 0 None st v = Some (n, out) /\
      (n <= length D)%nat /\ to_res _ _ _ out = Ok l /\ folder_holds c (titems ms) (fk_fs st) (fk_fs (to_sink _ _ _ out)).
Proof.
  intros Hden Hlay Ht Hok Hs.
  destruct (C66_tar_stop_resume pol data start size k D tm F N ms ok (folder_sink c) (folder_laws c (tentries_of ms) Hwd Hb HS)
    (folder_tarchive pol data start size k D tm F N ms ok c Hwd Hb HS Hden Hlay) Ht Hok (fun e t Hin => Hs e t Hin)) as (B & H).
  exists B. intros SV st rs fuel left v Hr Hc Hio Hg Hsv Hf Hl. apply (ready_finv c (tentries_of ms)) in Hr.
  destruct (H SV st rs fuel left v Hr Hc Hio Hg Hsv Hf Hl) as (n & out & E1 & E2 & _ & E4 & E5).
  exists n, out, (tfiles (folder_laws c (tentries_of ms) Hwd Hb HS) ms). splits; auto. eapply folder_holds_extracted; exact E5.
Qed.

(** ** Concrete cases: a save consumer that always stops *)
Definition stopper {CK DT} : saver CK DT := MkSaver nat (fun n _ => (n, true)) (fun n _ => (S n, inl true)).
Lemma stopper_noerr {CK DT} : saver_noerr (@stopper CK DT).
Proof. intros v c. do 2 eexists. reflexivity. Qed.

(** Two files are stopped in, each in the middle. *)
Definition ea_m3 := MkZm (MkZf (s2b "c") 8 6 0 0 8) 5 ex_out EEof.
Definition ea_ms : list zmember := [ex_m0; ex_m1; ex_m2; ea_m3; ex_m4].
Definition ea_io : nat -> zio := fun i =>
  let m := nth i ea_ms ex_m0 in
  MkZio (Ok (zm_off m)) (fun off n => MkRs (slice exA (Z.to_nat off) (Z.to_nat n)) 0 [] []) (Ok ([zm_data m], None)).
Lemma ea_archive : zarchive exA exC exF false map_laws ea_ms.
Proof.
  split; [|repeat constructor]. pose proof ex_zm_ok as H. rewrite Forall_forall in H.
  assert (H2 : zm_ok exA exC exF false ex_m2) by (apply H; cbn; auto).
  assert (H1 : zm_ok exA exC exF false ex_m1) by (apply H; cbn; auto).
  unfold ea_ms. repeat (apply Forall_cons; [first [exact H1|exact H2|exact Logic.I]|]). constructor.
Qed.
Lemma ea_ios : ios_ok exA false ea_ms ea_io.
Proof.
  intros i m Hm. unfold ea_io. rewrite (nth_error_nth _ _ _ Hm). split; [|split]; cbn.
  - reflexivity.
  - intros off n. split; [reflexivity|]. intros H; discriminate.
  - apply app_nil_r.
Qed.
Lemma ea_io_good i : io_good (ea_io i).
Proof. split; [|split]; cbn; eauto. intros. split; cbn; auto. Qed.

Definition ea_again := zip_again map_sink exC exF stopper (zfiles ea_ms) (fun _ => ea_io) 50 100 0 None map_empty 0%nat.
Example C66_zip_example_count : option_map (fun r => (fst r, zo_sv _ _ _ _ (snd r))) ea_again = Some (2, 2)%nat.
Proof. vm_compute. reflexivity. Qed.
Example C66_zip_example_sink : option_map (fun r => map (ms_view (zo_sink map_sink exC exF stopper (snd r))) [s2b "d/"; s2b "d/a"; s2b "b"; s2b "c"; s2b "l"; s2b "x"]) ea_again =
  Some [Some NDir; Some (NFile (s2b "hello")); Some (NFile (s2b "aabbcc")); Some (NFile (s2b "aabbcc")); Some (NLink (s2b "b")); None].
Proof. vm_compute. reflexivity. Qed.
Example C66_zip_example : exists B, forall fuel left, (B < fuel)%nat -> (zbytes ea_ms <= left)%nat ->
  exists n out, zip_again map_sink exC exF stopper (zfiles ea_ms) (fun _ => ea_io) fuel left 0 None map_empty 0%nat = Some (n, out) /\
    (n <= zbytes ea_ms)%nat /\ zo_res _ _ _ _ out = Ok (zlisting (zfiles ea_ms)).
Proof.
  destruct (C66_zip_stop_resume exA exC exF false map_sink map_laws ea_ms ea_archive) as (B & H).
  - repeat constructor; cbn; auto.
  - reflexivity.
  - exists B. intros fuel left Hf Hl.
    destruct (H stopper map_empty (fun _ => ea_io) fuel left 0%nat) as (n & out & E1 & E2 & _ & E4 & _); auto using stopper_noerr.
    + exact Logic.I.
    + exact Logic.I.
    + intros _. exact ea_ios.
    + intros _. exact ea_io_good.
    + exists n, out. auto.
Qed.

Definition et_again := tar_again map_sink et_fmt (stk_source et_k) stopper (fun _ => tsrc 0 54 et_k et_rs) 300 100 0 None map_empty 0%nat.
Example C66_tar_example_count : option_map fst et_again = Some 1%nat.
Proof. vm_compute. reflexivity. Qed.
Example C66_tar_example_sink : option_map (fun r => map (ms_view (to_sink map_sink (stk_source et_k) stopper (snd r))) [s2b "d"; s2b "b"; s2b "c"; s2b "l"; s2b "x"]) et_again =
  Some [Some NDir; Some (NFile (s2b "aabbcc")); Some (NFile (s2b "hhii")); Some (NLink (s2b "b")); None].
Proof. vm_compute. reflexivity. Qed.
Example C66_tar_example : exists B, forall fuel left, (B < fuel)%nat -> (length et_D <= left)%nat ->
  exists n out, tar_again map_sink et_fmt (stk_source et_k) stopper (fun _ => tsrc 0 54 et_k et_rs) fuel left 0 None map_empty 0%nat = Some (n, out) /\
    (n <= length et_D)%nat /\ to_res _ _ _ out = Ok (tfiles map_laws et_ms).
Proof.
  destruct (C66_tar_stop_resume false et_in 0 54 et_k et_D EEof et_fmt 5 et_ms true map_sink map_laws et_archive eq_refl eq_refl) as (B & H).
  - intros e t _. exact Logic.I.
  - exists B. intros fuel left Hf Hl.
    destruct (H stopper map_empty (fun _ => et_rs) fuel left 0%nat) as (n & out & E1 & E2 & _ & E4 & _); auto using stopper_noerr.
    + exact Logic.I.
    + exact Logic.I.
    + intros _. split; [reflexivity|]. intros Hx; discriminate.
    + intros _. split; cbn; auto.
    + exists n, out. auto.
Qed.
