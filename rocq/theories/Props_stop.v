(** Props_stop.v -- properties C56, C61, C62: what the answers of the save
    consumer do to an extraction. [watched SV] is the save consumer SV, noting the
    checkpoints it was given and its answers (StopSpec.v). *)
From Verif Require Import Base Base_proofs Source Seek Decomp Drive Copier Sink SinkSpec Zip ZipSpec Tar TarSpec StopSpec
  Settle_proofs Tar_proofs Tar2_proofs Stop_proofs Stop2_proofs Stop3_proofs ExCodec ExSink ExZip ExTar Props_tar.

Lemma h_clean_last {CK DT} SK fth (h : list (eckpt CK DT * (bool + gerr))) (lg : list (eckpt CK DT * k_st SK)) i ck a :
  h_clean SK fth h lg -> nth_error h i = Some (ck, a) -> a <> inl true /\ (fth = true -> forall e, a <> inr e).
Proof.
  intros [H _] Hn. apply nth_error_In in Hn. rewrite Forall_forall in H. destruct (H _ Hn) as [Ha|(Hf & e & Ha)]; cbn in Ha; subst a; split; try discriminate.
  intros Hf'. congruence.
Qed.
Lemma nth_last {A} (h : list A) x i y : nth_error (h ++ [x]) i = Some y -> (nth_error h i = Some y) \/ (i = length h /\ y = x).
Proof.
  intros H. destruct (Nat.lt_ge_cases i (length h)) as [Hl|Hl]; [left; rewrite nth_error_app1 in H; auto|].
  rewrite nth_error_app2 in H by exact Hl. destruct (i - length h)%nat as [|n] eqn:E; cbn in H; [right; split; [lia|congruence]|destruct n; discriminate].
Qed.
Lemma clean_len {CK DT} SK fth (h : list (eckpt CK DT * (bool + gerr))) (lg : list (eckpt CK DT * k_st SK)) : h_clean SK fth h lg -> length lg = length h.
Proof. intros [_ H]. rewrite <- (map_length fst lg), <- (map_length fst h), H. reflexivity. Qed.

Lemma watched_no_stop {CK DT} (SV : saver CK DT) : saver_no_stop SV -> saver_no_stop (watched SV).
Proof. intros HV [v0 h0] c0. pose proof (HV v0 c0) as H0. cbn in *. destruct (sv_save SV v0 c0) as [v1 r1]. exact H0. Qed.

(** ** Zip *)
Section Zip.
  Context (SK : sink) (C : codec) (fuel0 : nat) (SV : saver (zck C fuel0) unit).
  Context (files : list zfile) (io : nat -> zio) (fuel : nat) (c : option (zeck C fuel0)) (s : k_st SK) (v : sv_st SV).
  Let out := zip_resume SK C fuel0 (watched SV) files io fuel c s (v, []).
  Let calls := snd (zo_sv _ _ _ _ out).

  Lemma zip_out fth : (fth = true -> Forall (fun zf => (zf_method zf =? zip_store) = false) files) ->
    let lg := zo_log _ _ _ _ out in
    h_clean SK fth calls lg \/
    (exists s1 w d, h_stop SK fth calls lg s1 /\ zo_sink _ _ _ _ out = fst (k_write SK s1 w d) /\ exists e, zo_res _ _ _ _ out = Err e) \/
    (h_fail SK fth calls lg /\ exists e, zo_res _ _ _ _ out = Err e).
  Proof.
    intros Hf. unfold calls, out, zip_resume. cbv zeta.
    set (ck := match c with Some ck => ck | None => MkEck None 0 None (Some 0%Q) None end).
    destruct (match c with None => zip_preallocate SK files s | Some _ => (s, None) end) as [s1 [e|]]; [left; split; [constructor|reflexivity]|].
    destruct (ec_index ck <? 0); [left; split; [constructor|reflexivity]|].
    match goal with |- context[zip_loop SK C fuel0 (watched SV) io fuel ?fs ?i ?d ?t ?x] =>
      destruct (zip_loop SK C fuel0 (watched SV) io fuel fs i d t x) as [x' r] eqn:El;
      assert (HP : zphase SK C fuel0 SV fth x' r) end.
    { eapply zip_loop_phases; [| |exact El]; [|split; [split; [constructor|reflexivity]|reflexivity]].
      intros Ht. specialize (Hf Ht). rewrite Forall_forall in *. intros f Hin. apply Hf. rewrite <- (firstn_skipn (Z.to_nat (ec_index ck)) files). apply in_or_app. auto. }
    cbn [zo_sv zo_log zo_res zo_sink].
    destruct HP as [(HP & _)|[((s2 & w & d & (H1 & H2 & H3) & H4) & HR)|(HP & e & ->)]]; [left; exact HP| |right; right; eauto].
    right. left. exists s2, w, d. splits; auto. rewrite H2. destruct HR as [->|(e & ->)]; eauto.
  Qed.
End Zip.

(** C61. The consumer's Save is called for exactly the checkpoints in the log.
    Once it has answered stop it is not called again, nothing happens to the sink
    but the write of the chunk that was being read, and Resume returns an error. *)
Theorem C61_zip_stop SK C fuel0 (SV : saver (zck C fuel0) unit) files io fuel c s v out calls i ck :
  out = zip_resume SK C fuel0 (watched SV) files io fuel c s (v, []) -> calls = snd (zo_sv _ _ _ _ out) ->
  nth_error calls i = Some (ck, inl true) ->
  (i + 1 = length calls)%nat /\
  (exists s1 w d, nth_error (zo_log _ _ _ _ out) i = Some (ck, s1) /\ zo_sink _ _ _ _ out = fst (k_write SK s1 w d)) /\
  exists e, zo_res _ _ _ _ out = Err e.
Proof.
  intros -> -> Hn. destruct (zip_out SK C fuel0 SV files io fuel c s v false ltac:(discriminate)) as [H|[(s1 & w & d & H & Hs & Hr)|(H & _)]].
  - destruct (h_clean_last _ _ _ _ _ _ _ H Hn) as [H1 _]. congruence.
  - destruct H as (h & lg & c1 & E1 & E2 & H). rewrite E1 in Hn |- *. rewrite E2.
    destruct (nth_last _ _ _ _ Hn) as [Hn'|[-> [= ->]]].
    { destruct (h_clean_last _ _ _ _ _ _ _ H Hn') as [H1 _]. congruence. }
    splits; [rewrite app_length; reflexivity| |exact Hr].
    exists s1, w, d. split; [|exact Hs]. rewrite <- (clean_len _ _ _ _ H), nth_error_app2, Nat.sub_diag; auto.
  - destruct H as (? & ? & ? & ? & ? & _ & _ & _ & Hx). discriminate.
Qed.

(** ... and if no error of the sink, the consumer or the archive is savior.ErrStop
    itself, that is what Resume returns only if the consumer asked it to stop. *)
Theorem C61_zip_errstop SK C fuel0 (SV : saver (zck C fuel0) unit) files io fuel c s v out calls :
  sink_no_stop SK -> saver_no_stop SV -> (forall i, zio_no_stop (io i)) ->
  out = zip_resume SK C fuel0 (watched SV) files io fuel c s (v, []) -> calls = snd (zo_sv _ _ _ _ out) ->
  zo_res _ _ _ _ out = Err EStop -> exists ck, nth_error calls (length calls - 1) = Some (ck, inl true).
Proof.
  intros HK HV HI -> ->. unfold zip_resume. cbv zeta.
  set (ck := match c with Some ck => ck | None => MkEck None 0 None (Some 0%Q) None end).
  assert (HP : forall fs s0, snd (zip_preallocate SK fs s0) <> Some EStop).
  { destruct HK as (_ & _ & _ & HK4 & _). induction fs as [|f fs IH]; intros s0; cbn [zip_preallocate]; [discriminate|].
    destruct (en_kind _); auto. pose proof (HK4 s0 (zip_entry_of f)) as H4. destruct (k_prealloc SK s0 _) as [s1 [e|]]; auto.
    cbn in *. intros [= E]. apply (with_stack_no_stop e); congruence. }
  assert (HP' : snd (match c with None => zip_preallocate SK files s | Some _ => (s, None) end) <> Some EStop) by (destruct c; [discriminate|apply HP]).
  destruct (match c with None => zip_preallocate SK files s | Some _ => (s, None) end) as [s1 [e|]]; [cbn; cbn in HP'; congruence|].
  destruct (ec_index ck <? 0); [discriminate|].
  match goal with |- context[zip_loop SK C fuel0 (watched SV) io fuel ?fs ?i ?d ?t ?x] =>
    destruct (zip_loop SK C fuel0 (watched SV) io fuel fs i d t x) as [x' r] eqn:El;
    assert (HZ : zphase SK C fuel0 SV false x' r) end.
  { eapply zip_loop_phases; [| |exact El]; [discriminate|split; [split; [constructor|reflexivity]|reflexivity]]. }
  pose proof (watched_no_stop SV HV) as HV'.
  pose proof (zip_loop_quiet SK C fuel0 (watched SV) HK HV' io fuel _ HI _ _ _ _ _ _ El) as HQ.
  cbn [zo_sv zo_log zo_res zo_sink]. intros Hr.
  assert (Hse : Zip.x_stoperr _ _ _ _ x' = true). { destruct r; try discriminate; [|congruence]. destruct (Zip.x_stoperr _ _ _ _ x'); [reflexivity|discriminate]. }
  destruct HZ as [(_ & HZ)|[((s2 & w & d & (H1 & _) & _) & _)|(HZ & _)]].
  - congruence.
  - destruct H1 as (h & lg & c1 & E1 & _). rewrite E1. exists c1. rewrite app_length, nth_error_app2; cbn [length]; [|lia].
    replace (length h + 1 - 1 - length h)%nat with 0%nat by lia. reflexivity.
  - destruct HZ as (? & ? & ? & ? & ? & _ & _ & _ & Hx). discriminate.
Qed.

(** C62. If no entry is stored without compression, an error of Save makes Resume
    fail; it was the last call of Save. *)
Theorem C62_zip_save_error_partial SK C fuel0 (SV : saver (zck C fuel0) unit) files io fuel c s v out calls i ck e :
  Forall (fun zf => zf_method zf <> zip_store) files ->
  out = zip_resume SK C fuel0 (watched SV) files io fuel c s (v, []) -> calls = snd (zo_sv _ _ _ _ out) ->
  nth_error calls i = Some (ck, inr e) ->
  (i + 1 = length calls)%nat /\ exists e', zo_res _ _ _ _ out = Err e'.
Proof.
  intros Hm -> -> Hn. assert (Hm' : true = true -> Forall (fun zf => (zf_method zf =? zip_store) = false) files).
  { intros _. eapply Forall_impl; [|exact Hm]. intros zf. apply Z.eqb_neq. }
  destruct (zip_out SK C fuel0 SV files io fuel c s v true Hm') as [H|[(s1 & w & d & H & Hs & Hr)|(H & Hr)]].
  - destruct (h_clean_last _ _ _ _ _ _ _ H Hn) as [_ H1]. destruct (H1 eq_refl e eq_refl).
  - destruct H as (h & lg & c1 & E1 & E2 & H). rewrite E1 in Hn. destruct (nth_last _ _ _ _ Hn) as [Hn'|[-> [=]]].
    destruct (h_clean_last _ _ _ _ _ _ _ H Hn') as [_ H1]. destruct (H1 eq_refl e eq_refl).
  - destruct H as (h & lg & c1 & s1 & e1 & E1 & E2 & H & _). rewrite E1 in Hn |- *.
    destruct (nth_last _ _ _ _ Hn) as [Hn'|[-> _]].
    { destruct (h_clean_last _ _ _ _ _ _ _ H Hn') as [_ H1]. destruct (H1 eq_refl e eq_refl). }
    split; [rewrite app_length; reflexivity|exact Hr].
Qed.

(** ** Tar *)
Section Tar.
  Context (SK : sink) (F : tfmt) (k : stk) (SV : saver (s_ck (stk_source k)) tstate).
  Notation S := (stk_source k).
  Context (src : s_st S) (fuel : nat) (c : option (teck S)) (st : k_st SK) (v : sv_st SV).
  Let out := tar_resume SK F S (watched SV) src fuel c st (v, []).
  Let calls := snd (to_sv _ _ _ out).

  Lemma tar_run_out fth src' s ck ts keep : (fth = true -> stk_compressed k = true) ->
    let o := tar_run SK F S (watched SV) fuel src' s ck ts keep st (v, []) in
    h_clean SK fth (snd (to_sv _ _ _ o)) (to_log _ _ _ o) \/
    (exists s1 w d, h_stop SK fth (snd (to_sv _ _ _ o)) (to_log _ _ _ o) s1 /\ to_sink _ _ _ o = fst (k_closew SK (fst (k_write SK s1 w d)) w) /\ exists e, to_res _ _ _ o = Err e) \/
    (h_fail SK fth (snd (to_sv _ _ _ o)) (to_log _ _ _ o) /\ exists e, to_res _ _ _ o = Err e).
  Proof.
    intros Hf. unfold tar_run. cbv zeta.
    match goal with |- context[tar_loop SK F S (watched SV) fuel ?lf ?a ?b ?i ?x] =>
      destruct (tar_loop SK F S (watched SV) fuel lf a b i x) as [x' r] eqn:El;
      assert (HP : tphase SK S SV fth x' r) end.
    { eapply (tar_loop_phases SK F S SV fth _ (stk_saves_once k) Hf); [|exact El]; split; [split; [constructor|reflexivity]|left; reflexivity]. }
    cbn [to_sv to_log to_res to_sink].
    destruct HP as [(HP & _)|[((s2 & w & d & (H1 & H2) & H4) & HR)|(HP & e & ->)]]; [left; exact HP| |right; right; eauto].
    right. left. exists s2, w, d. splits; auto. rewrite H2. destruct HR as [->|(e & ->)]; eauto.
  Qed.
  Lemma tar_out fth : (fth = true -> stk_compressed k = true) ->
    h_clean SK fth calls (to_log _ _ _ out) \/
    (exists s1 w d, h_stop SK fth calls (to_log _ _ _ out) s1 /\ to_sink _ _ _ out = fst (k_closew SK (fst (k_write SK s1 w d)) w) /\ exists e, to_res _ _ _ out = Err e) \/
    (h_fail SK fth calls (to_log _ _ _ out) /\ exists e, to_res _ _ _ out = Err e).
  Proof.
    intros Hf. unfold calls, out, tar_resume. destruct (tar_point S c) as [[[ck ts] s]|].
    - cbv zeta. destruct (s_resume S src (ec_src ck)) as [src1 [o|e| |]]; try (left; split; [constructor|reflexivity]).
      destruct (if _ <? _ then _ else _) as [[src2 u] [o2|e| |]]; try (left; split; [constructor|reflexivity]).
      apply tar_run_out. exact Hf.
    - destruct (s_resume S src None) as [src1 [o|e| |]]; try (left; split; [constructor|reflexivity]). apply tar_run_out. exact Hf.
  Qed.
End Tar.

(** C61 for tar: the writer is also closed. *)
Theorem C61_tar_stop SK F k (SV : saver (s_ck (stk_source k)) tstate) src fuel c st v out calls i ck :
  out = tar_resume SK F (stk_source k) (watched SV) src fuel c st (v, []) -> calls = snd (to_sv _ _ _ out) ->
  nth_error calls i = Some (ck, inl true) ->
  (i + 1 = length calls)%nat /\
  (exists s1 w d, nth_error (to_log _ _ _ out) i = Some (ck, s1) /\ to_sink _ _ _ out = fst (k_closew SK (fst (k_write SK s1 w d)) w)) /\
  exists e, to_res _ _ _ out = Err e.
Proof.
  intros -> -> Hn. destruct (tar_out SK F k SV src fuel c st v false ltac:(discriminate)) as [H|[(s1 & w & d & H & Hs & Hr)|(H & _)]].
  - destruct (h_clean_last _ _ _ _ _ _ _ H Hn) as [H1 _]. congruence.
  - destruct H as (h & lg & c1 & E1 & E2 & H). rewrite E1 in Hn |- *. rewrite E2.
    destruct (nth_last _ _ _ _ Hn) as [Hn'|[-> [= ->]]].
    { destruct (h_clean_last _ _ _ _ _ _ _ H Hn') as [H1 _]. congruence. }
    splits; [rewrite app_length; reflexivity| |exact Hr].
    exists s1, w, d. split; [|exact Hs]. rewrite <- (clean_len _ _ _ _ H), nth_error_app2, Nat.sub_diag; auto.
  - destruct H as (? & ? & ? & ? & ? & _ & _ & _ & Hx). discriminate.
Qed.
Theorem C61_tar_errstop SK F k (SV : saver (s_ck (stk_source k)) tstate) rs start size fuel c st v out calls :
  sink_no_stop SK -> saver_no_stop SV -> fmt_no_stop F ->
  out = tar_resume SK F (stk_source k) (watched SV) (stk_new k rs start size) fuel c st (v, []) -> calls = snd (to_sv _ _ _ out) ->
  to_res _ _ _ out = Err EStop -> exists ck, nth_error calls (length calls - 1) = Some (ck, inl true).
Proof.
  intros HK HV HF -> ->. pose proof (watched_no_stop SV HV) as HV'. pose proof (stk_new_quiet k rs start size) as HQ.
  assert (HR : forall src' s ck ts keep, stk_quiet k src' ->
    let o := tar_run SK F (stk_source k) (watched SV) fuel src' s ck ts keep st (v, []) in
    to_res _ _ _ o = Err EStop -> exists ck, nth_error (snd (to_sv _ _ _ o)) (length (snd (to_sv _ _ _ o)) - 1) = Some (ck, inl true)).
  { intros src' s ck ts keep Hq. unfold tar_run. cbv zeta.
    match goal with |- context[tar_loop SK F ?S (watched SV) fuel ?lf ?a ?b ?i ?x] =>
      destruct (tar_loop SK F S (watched SV) fuel lf a b i x) as [x' r] eqn:El;
      assert (HP : tphase SK S SV false x' r) end.
    { eapply (tar_loop_phases SK F _ SV false _ (stk_saves_once k)); [discriminate| |exact El]. split; [split; [constructor|reflexivity]|left; reflexivity]. }
    assert (Hr : r <> Err EStop). { eapply loop_quiet; [exact HK|exact HV'|exact HF| |exact El]. apply (q_setssc _ _ (stk_is_quiet k)). exact Hq. }
    cbn [to_sv to_log to_res to_sink]. intros H.
    assert (Hs : t_stoperr _ _ _ x' = Some EStop).
    { destruct r as [u|e| |]; try discriminate; [|injection H as H; destruct (with_stack_no_stop e ltac:(congruence) H)].
      destruct (t_stoperr _ _ _ x') as [[]|]; try discriminate. reflexivity. }
    destruct HP as [(_ & [HP|HP])|[((s2 & w & d & (H1 & _) & _) & _)|(HP & _)]]; try congruence.
    - destruct H1 as (h & lg & c1 & E1 & _). rewrite E1. exists c1. rewrite app_length, nth_error_app2; cbn [length]; [|lia].
      replace (length h + 1 - 1 - length h)%nat with 0%nat by lia. reflexivity.
    - destruct HP as (? & ? & ? & ? & ? & _ & _ & _ & Hx). discriminate. }
  unfold tar_resume. destruct (tar_point _ c) as [[[ck ts] s]|].
  - cbv zeta. pose proof (q_resume _ _ (stk_is_quiet k) _ (ec_src ck) HQ) as [A B].
    destruct (s_resume _ _ (ec_src ck)) as [src1 [o|e| |]]; cbn [fst snd] in A, B; try discriminate.
    + pose proof (discard_quiet _ _ (stk_is_quiet k) drop_cb drop_cb_quiet fuel src1 tt (sr_off s - o) A) as [A2 B2].
      destruct (if _ <? _ then _ else _) as [[src2 u] [o2|e| |]] eqn:Ed; try discriminate.
      * apply HR. revert Ed. destruct (_ <? _); [|congruence]. intros Ed. rewrite Ed in A2. exact A2.
      * cbn. intros [= E]. destruct (with_stack_no_stop e); [|exact E]. intros ->.
        revert Ed. destruct (_ <? _); [|congruence]. intros Ed. rewrite Ed in B2. apply B2. reflexivity.
    + cbn. intros [= E]. destruct (with_stack_no_stop e); [|exact E]. congruence.
  - pose proof (q_resume _ _ (stk_is_quiet k) _ None HQ) as [A B].
    destruct (s_resume _ _ None) as [src1 [o|e| |]]; cbn [fst snd] in A, B; try discriminate; [apply HR; exact A|].
    cbn. intros [= E]. destruct (with_stack_no_stop e); [|exact E]. congruence.
Qed.
(** C62 for tar: a compressed tar stream *)
Theorem C62_tar_save_error_partial SK F k (SV : saver (s_ck (stk_source k)) tstate) src fuel c st v out calls i ck e :
  stk_compressed k = true ->
  out = tar_resume SK F (stk_source k) (watched SV) src fuel c st (v, []) -> calls = snd (to_sv _ _ _ out) ->
  nth_error calls i = Some (ck, inr e) ->
  (i + 1 = length calls)%nat /\ exists e', to_res _ _ _ out = Err e'.
Proof.
  intros Hm -> -> Hn. destruct (tar_out SK F k SV src fuel c st v true (fun _ => Hm)) as [H|[(s1 & w & d & H & Hs & Hr)|(H & Hr)]].
  - destruct (h_clean_last _ _ _ _ _ _ _ H Hn) as [_ H1]. destruct (H1 eq_refl e eq_refl).
  - destruct H as (h & lg & c1 & E1 & E2 & H). rewrite E1 in Hn. destruct (nth_last _ _ _ _ Hn) as [Hn'|[-> [=]]].
    destruct (h_clean_last _ _ _ _ _ _ _ H Hn') as [_ H1]. destruct (H1 eq_refl e eq_refl).
  - destruct H as (h & lg & c1 & s1 & e1 & E1 & E2 & H & _). rewrite E1 in Hn |- *.
    destruct (nth_last _ _ _ _ Hn) as [Hn'|[-> _]].
    { destruct (h_clean_last _ _ _ _ _ _ _ H Hn') as [_ H1]. destruct (H1 eq_refl e eq_refl). }
    split; [rewrite app_length; reflexivity|exact Hr].
Qed.


(** ** Cases *)
(** C61: the consumer stops the extraction at the first checkpoint. *)
Definition es_zip := zip_resume map_sink exC exF (watched ex_saver) (zfiles ex_ms) ex_io 50 None map_empty (1%nat, [], []).
Lemma es_zip_calls : map (fun p => (ec_index (fst p), snd p)) (snd (zo_sv _ _ _ _ es_zip)) = [(2, inl true)].
Proof. vm_compute. reflexivity. Qed.
Lemma es_zip_res : zo_res _ _ _ _ es_zip = Err EStop.
Proof. vm_compute. reflexivity. Qed.
Example C61_zip_example :
  map (fun p => (ec_index (fst p), snd p)) (snd (zo_sv _ _ _ _ es_zip)) = [(2, inl true)] /\ zo_res _ _ _ _ es_zip = Err EStop /\
  map (ms_view (zo_sink _ _ _ _ es_zip)) [s2b "d/a"; s2b "b"; s2b "z"; s2b "l"] =
    [Some (NFile (s2b "hello")); Some (NFile (s2b "aabb")); Some (NFile [zero]); None].
Proof. split; [exact es_zip_calls|]. split; [exact es_zip_res|]. vm_compute. reflexivity. Qed.
Definition es_tar := tar_resume map_sink et_fmt (stk_source et_k) (watched et_saver) (tsrc 0 54 et_k et_rs) 300 None map_empty (1%nat, []).
Example C61_tar_example :
  map (fun p => (ec_index (fst p), snd p)) (snd (to_sv _ _ _ es_tar)) = [(2, inl true)] /\ to_res _ _ _ es_tar = Err EStop.
Proof. split; vm_compute; reflexivity. Qed.

(** C62: a consumer whose Save always fails *)
Definition bad_saver {CK DT} : saver CK DT := MkSaver unit (fun s _ => (s, true)) (fun s c => (s, inr EIO)).
Definition es_zip_bad files io := zip_resume map_sink exC exF (watched bad_saver) (zfiles files) io 50 None map_empty (tt, []).
Definition es_tar_bad k n rs := tar_resume map_sink et_fmt (stk_source k) (watched bad_saver) (tsrc 0 n k rs) 300 None map_empty (tt, []).
Example C62_zip_example :
  let ms := [ex_m2] in let io := fun _ : nat => ex_io 2 in
  Forall (fun zf => zf_method zf <> zip_store) (zfiles ms) /\
  map (fun p => (ec_index (fst p), snd p)) (snd (zo_sv _ _ _ _ (es_zip_bad ms io))) = [(0, inr EIO)] /\ zo_res _ _ _ _ (es_zip_bad ms io) = Err EIO.
Proof. cbv zeta. split; [repeat constructor; discriminate|]. split; vm_compute; reflexivity. Qed.
Example C62_tar_example :
  stk_compressed et_k = true /\
  map (fun p => (ec_index (fst p), snd p)) (snd (to_sv _ _ _ (es_tar_bad et_k 54 et_rs))) = [(2, inr EIO)] /\ to_res _ _ _ (es_tar_bad et_k 54 et_rs) = Err EIO.
Proof. splits; vm_compute; reflexivity. Qed.

(** C62 is false of the code for data that is not compressed: seeksource drops the error of
    Save, so the extraction goes on and succeeds. *)
Definition two : list rsev := repeat (RsChunk 2 false) 30.
Definition es_io2 : nat -> zio := fun i =>
  let m := nth i ex_ms ex_m0 in
  MkZio (Ok (zm_off m)) (fun off n => MkRs (slice exA (Z.to_nat off) (Z.to_nat n)) 0 two []) (Ok ([zm_data m], None)).
Theorem C62_zip_save_error_refuted :
  map (fun p => (ec_index (fst p), snd p)) (snd (zo_sv _ _ _ _ (es_zip_bad [ex_m0; ex_m1] es_io2))) = [(1, inr EIO)] /\
  exists l, zo_res _ _ _ _ (es_zip_bad [ex_m0; ex_m1] es_io2) = Ok l.
Proof. split; [vm_compute; reflexivity|]. apply is_ok. vm_compute. reflexivity. Qed.
Theorem C62_tar_save_error_refuted :
  map (fun p => (ec_index (fst p), snd p)) (snd (to_sv _ _ _ (es_tar_bad KSeek 52 (MkRs et_D 0 two [])))) = [(2, inr EIO); (2, inr EIO); (3, inr EIO)] /\
  exists l, to_res _ _ _ (es_tar_bad KSeek 52 (MkRs et_D 0 two [])) = Ok l.
Proof. split; [vm_compute; reflexivity|]. apply is_ok. vm_compute. reflexivity. Qed.
