(** Props_spoil.v -- property C65: checkpoints that come back incomplete
    (SpoilSpec.v). *)
From Verif Require Import Base Base_proofs Source Contract Seek Decomp CodecSpec Drive SpoilSpec Stack_proofs Copier Sink SinkSpec NoteSpec Zip ZipSpec
  Settle_proofs Zip_proofs Zip2_proofs Zip3_proofs Tar TarSpec Tar2_proofs ExCodec ExSink ExZip ExTar Props_source3 Props_zip Props_zip2 Props_tar.
Open Scope Z_scope.

(** ** Sources.
    [c] was emitted by some source over the same data, [c'] is what is left of
    it. A new source resumed from [c'] begins no later than [c] and delivers the
    right bytes from there on; if the outermost decompressor's state is still
    there, it begins exactly at [c]. It only fails if the reader does (or the
    stream has nothing to deliver). *)
Theorem C65_spoilt_source : forall pol data start size k D tm b byt p late rs c c' st r,
  stk_den pol data start size k D tm b byt p late -> emitted pol data start size k byt c -> spoilt k c c' ->
  rs_of data rs -> stk_flag pol (rs_separate rs) ->
  s_resume (stk_source k) (s_setssc (stk_source k) (stk_new k rs start size)) (Some c') = (st, r) ->
  r <> Panic /\ r <> Hang /\ (rs_good rs -> D <> [] -> exists z, r = Ok z) /\
  (forall z, r = Ok z -> 0 <= z <= ck_off c /\ (keeps_state k c' -> z = ck_off c) /\
     (forall ops st' evs bad, Forall (op_ok byt) ops -> trace (stk_source k) st ops = (st', evs, bad) ->
        bad = false /\ tdata evs = firstn (length (tdata evs)) (skipn (Z.to_nat z) D) /\
        tr_ok D tm (~ rs_good rs) late (Z.to_nat z) evs) /\
     (rs_good rs -> exists n0, forall n sz st' evs bad, (n0 <= n)%nat -> (0 < sz)%nat ->
        trace (stk_source k) st (repeat (CRead sz) n) = (st', evs, bad) ->
        tdata evs = skipn (Z.to_nat z) D /\ exists ev, In ev evs /\ te_err ev = Some tm)).
Proof.
  intros pol data start size k D tm b byt p late rs c c' st r Hden Hem Hsp Hd Hp Hr.
  destruct (stk_laws _ _ _ _ _ _ _ _ _ _ _ Hden) as (L & HF).
  destruct (life_ok pol data start size k D tm b byt p late L HF) as [_ Hem'].
  pose proof HF as [F1 F2 F3 F4 F5 F6 F7 F8].
  specialize (Hem' _ Hem). pose proof (lw_ck_len _ _ _ L c Hem') as Hlen.
  destruct (lw_setssc _ _ _ L _ (F5 rs Hd Hp)) as (W1 & _ & W3 & W4). specialize (W3 (F6 rs Hd)).
  destruct (F8 c c' Hem' Hsp) as [L1 L2].
  pose proof (L1 _ _ _ W1 W3 Hr) as H.
  destruct r as [z|e| |]; [| |destruct H|destruct H].
  - destruct H as (Hz & (m & Hat) & _ & Hcl). split; [discriminate|]. split; [discriminate|]. split; [eauto|].
    intros z0 [= <-]. split; [exact Hz|]. split.
    { intros Hk. destruct (L2 Hk _ _ _ W1 W3 Hr) as (Hz' & _). lia. }
    split.
    + intros ops st' evs bad Hops Ht.
      destruct (trace_ok L byt F4 ops st _ m st' evs bad Hops Hat Ht) as (Hb & Htr & _).
      split; [exact Hb|]. rewrite F3 in Htr.
      assert (Htr' : tr_ok D tm (~ rs_good rs) late (Z.to_nat z) evs).
      { eapply tr_ok_weaken; [|exact Htr]. intros Hn Hg. apply Hn, Hcl, W4, F7; assumption. }
      split; [|exact Htr'].
      destruct (tr_ok_data _ _ _ _ _ _ Htr' ltac:(unfold zlen in *; lia)) as [D1 _]. exact D1.
    + intros Hg. exists (Datatypes.S m). intros n sz st' evs bad Hn Hsz Ht.
      apply (trace_end L n st (Z.to_nat z) m st' evs bad sz); auto.
  - split; [discriminate|]. split; [discriminate|]. split; [|discriminate].
    intros Hg Hne. exfalso. destruct H as [H|[H _]]; [|contradiction]. apply H, W4, F7; assumption.
Qed.

(** Not vacuous: the checkpoint of C13_example at byte 4, without its input's
    checkpoint (resumes at 4, after discarding input), and without its state (resumes at 0). *)
Definition drop_src {C I} (c : sckpt (dck C I)) : sckpt (dck C I) :=
  MkCk (ck_off c) (option_map (fun dk => MkDck C I (dk_off C I dk) None (dk_roff C I dk) (dk_woff C I dk) (dk_snap C I dk)) (ck_data c)).
Definition drop_snap {C I} (c : sckpt (dck C I)) : sckpt (dck C I) :=
  MkCk (ck_off c) (option_map (fun dk => MkDck C I (dk_off C I dk) (dk_src C I dk) (dk_roff C I dk) (dk_woff C I dk) None) (ck_data c)).
Lemma drop_src_spoilt C cfg fuel s (c : sckpt (s_ck (stk_source (KDec C cfg fuel s)))) : spoilt (KDec C cfg fuel s) c (drop_src c).
Proof.
  destruct c as [off [dk|]]; [right|left; reflexivity]. exists dk. eexists. cbn. split; [reflexivity|]. split; [reflexivity|]. cbn. splits; auto.
Qed.
Lemma drop_snap_spoilt C cfg fuel s (c : sckpt (s_ck (stk_source (KDec C cfg fuel s)))) : spoilt (KDec C cfg fuel s) c (drop_snap c).
Proof.
  destruct c as [off [dk|]]; [right|left; reflexivity]. exists dk. eexists. cbn. split; [reflexivity|]. split; [reflexivity|]. cbn. splits; auto.
  destruct (dk_src _ _ dk) as [ic|]; [right|left; reflexivity]. exists ic, ic. auto.
Qed.

Notation ex_src := (stk_source (ex_stk false false)).
Notation after_resume c := (snd (s_resume ex_src ex_st0 (Some c)),
  tdata (snd (fst (trace ex_src (fst (s_resume ex_src ex_st0 (Some c))) [CRead 9; CRead 9; CRead 9; CRead 9; CRead 9])))).
Example C65_source_example : exists c, emitted false ex_in 0 8 (ex_stk false false) true c /\
  spoilt (ex_stk false false) c (drop_src c) /\ spoilt (ex_stk false false) c (drop_snap c) /\
  (ck_off c, after_resume (drop_src c), after_resume (drop_snap c), after_resume (MkCk 4 None : sckpt (s_ck ex_src)))
  = (4, (Ok 4, s2b "cc"), (Ok 0, s2b "aabbcc"), (Ok 0, s2b "aabbcc")).
Proof.
  match goal with |- exists c, emitted _ _ _ _ _ _ _ /\ _ /\ _ /\ @?f c = ?y =>
    destruct (map_single f (te_cks ex_ev) y) as (c & Hc & Hf); [vm_compute; reflexivity|] end.
  exists c. split; [exact (ex_ev_emitted c Hc)|]. split; [apply drop_src_spoilt|]. split; [apply drop_snap_spoilt|exact Hf].
Qed.

(** ** Extractors. [zspoilt], [tspoilt]: an extractor's checkpoint with the same
    index, entry and tar state, but its source checkpoint missing or spoilt.
    The user may hold such checkpoints instead of the good ones, at any time
    (ZlSpoil, with mem = true, and TfSpoil); a run that ends without error still
    leaves exactly the archive. *)
Theorem C65_zip_spoilt_exact A C fuel0 pol SK (L : sink_laws SK) ms st0 st later c c' earlier SV io fuel v out l :
  zarchive A C fuel0 pol L ms -> kl_inv L st0 ->
  zlife A C fuel0 pol ms L st0 true st (later ++ c :: earlier) -> zspoilt C fuel0 ms c c' ->
  ios_ok A pol ms io -> out = zip_resume SK C fuel0 SV (zfiles ms) io fuel (Some c') st v -> zo_res _ _ _ _ out = Ok l ->
  extracted L (zitems ms) (kl_view L st0) (zo_sink _ _ _ _ out) /\ l = zlisting (zfiles ms).
Proof.
  intros HA Hi Hl Hsp Hio Hout Hres.
  apply (C43_zip_retry_same_object A C fuel0 pol SK L ms st0 SV (Some c') io fuel st out l HA Hi); [|exact Hres].
  eapply ZrResume; [exact (ZlSpoil _ _ _ _ _ _ _ _ _ _ _ _ _ eq_refl Hl Hsp)|exact Hio|exact Hout].
Qed.

(** ... and it does end without error if nothing fails any more, provided that
    neither the readers nor the decompressor return io.EOF together with data
    (as Discard of the skipped bytes would take that for an error). *)
Theorem C65_zip_spoilt_completes A C fuel0 SK (L : sink_laws SK) ms :
  zarchive A C fuel0 true L ms -> Forall (zsound C fuel0 L) ms -> existsb zencrypted ms = false -> cd_eager C = false ->
  exists B, forall st0 SV c io fuel st out,
    kl_inv L st0 -> zrun A C fuel0 true ms L st0 true SV c io fuel st out ->
    kl_clean L st -> (forall i, io_good (io i)) -> saver_goes_on SV -> (B < fuel)%nat ->
    zo_res _ _ _ _ out = Ok (zlisting (zfiles ms)) /\ extracted L (zitems ms) (kl_view L st0) (zo_sink _ _ _ _ out).
Proof.
  intros HA Hs He Hea. destruct (all_good A C fuel0 true ms (za_ok _ _ _ _ _ _ HA)) as (B & HB). exists B.
  intros st0 SV c io fuel st out Hi Hrun Hc Hg Hsv Hf.
  destruct (zrun_ok A C fuel0 true ms L st0 true SV B HA Hi HB _ _ _ _ _ Hrun) as (earlier & _ & _ & Ht & _ & Hlive).
  assert (Hr : zo_res _ _ _ _ out = Ok (zlisting (zfiles ms))).
  { assert (He' : existsb enc (skipn (fst (start_of C fuel0 ms c)) ms) = false).
    { apply not_true_is_false. intros Hx. apply existsb_exists in Hx. destruct Hx as (m & Hm & Hx).
      assert (existsb zencrypted ms = true); [|congruence]. apply existsb_exists. exists m. split; [|exact Hx].
      rewrite <- (firstn_skipn (fst (start_of C fuel0 ms c)) ms). apply in_or_app. auto. }
    rewrite He' in Hlive. apply (Hlive Hsv); [|exact Hc]. split.
    - split; [exact (goes_on_noerr _ Hsv)|]. split; [exact Hf|].
      intros i m _ Hn _. rewrite Forall_forall in Hs. destruct (Hs m (nth_error_In _ _ Hn)) as [S1 S2]. splits; auto.
    - apply Ht. apply Forall_forall. intros m _. right. unfold zpolite. destruct (is_store m); [reflexivity|]. rewrite Hea. reflexivity. }
  split; [exact Hr|]. eapply (proj1 (zrun_extracted A C fuel0 true ms L st0 true SV HA Hi _ _ _ _ _ _ Hrun Hr)).
Qed.

Theorem C65_tar_spoilt_exact pol data start size k D tm F N ms ok SK (L : sink_laws SK) st0 st later c c' earlier SV rs fuel v out l :
  tarchive pol data start size k D tm F N ms ok L -> kl_inv L st0 ->
  tlife pol data start size k F L st0 ms st (later ++ c :: earlier) -> tspoilt k c c' ->
  rs_ok pol data rs -> out = tar_resume SK F (stk_source k) SV (tsrc start size k rs) fuel (Some c') st v -> to_res _ _ _ out = Ok l ->
  extracted L (titems ms) (kl_view L st0) (to_sink _ _ _ out) /\ l = tfiles L ms /\ ok = true.
Proof.
  intros HA Hi Hl Hsp Hr Hout Hres.
  assert (Hrun : trun pol data start size k F L st0 ms SV (Some c') rs fuel st out).
  { eapply TrResume; [exact (TfSpoil _ _ _ _ _ _ _ _ _ _ _ _ _ _ Hl Hsp)|exact Hr|exact Hout]. }
  destruct (C45_tar_resume_exact _ _ _ _ _ _ _ _ _ _ _ _ _ HA st0 SV _ rs fuel st out l Hi Hrun Hres) as [H1 H2].
  splits; auto. exact (C46_tar_result_partial _ _ _ _ _ _ _ _ _ _ _ _ _ HA st0 SV _ rs fuel st out l Hi Hrun Hres).
Qed.
Theorem C65_tar_spoilt_completes pol data start size k D tm F N ms ok SK (L : sink_laws SK) :
  tarchive pol data start size k D tm F N ms ok L -> tm = EEof -> ok = true -> tsound L ms ->
  exists B, forall st0 st later c c' earlier SV rs fuel v out, kl_inv L st0 ->
    tlife pol data start size k F L st0 ms st (later ++ c :: earlier) -> tspoilt k c c' ->
    rs_ok pol data rs -> out = tar_resume SK F (stk_source k) SV (tsrc start size k rs) fuel (Some c') st v ->
    kl_clean L st -> rs_good rs -> saver_goes_on SV -> (B < fuel)%nat ->
    exists l, to_res _ _ _ out = Ok l /\ extracted L (titems ms) (kl_view L st0) (to_sink _ _ _ out).
Proof.
  intros HA Ht Hok Hs. destruct (C45_tar_resume_completes _ _ _ _ _ _ _ _ _ _ _ _ _ HA Ht Hok Hs) as (B & H). exists B.
  intros st0 st later c c' earlier SV rs fuel v out Hi Hl Hsp Hr Hout. apply (H st0 SV (Some c') rs fuel st out Hi).
  eapply TrResume; [exact (TfSpoil _ _ _ _ _ _ _ _ _ _ _ _ _ _ Hl Hsp)|exact Hr|exact Hout].
Qed.

(** Not vacuous: the runs of ExZip.v and ExTar.v, resumed without the
    decompressor's state; and a tar stream resumed without any source checkpoint. *)
Definition ez_spoil (c : zeck exC exF) : zeck exC exF :=
  MkEck (option_map drop_snap (ec_src c)) (ec_index c) (ec_entry c) (ec_prog c) (ec_data c).
Definition ex_second' := ExZip.ex_run 0%nat (option_map ez_spoil ex_ck) (fst (zo_sink _ _ _ _ ex_first0)).
Example C65_zip_example :
  (exists c, ex_ck = Some c /\ zspoilt exC exF ex_ms c (ez_spoil c) /\
     zlife exA exC exF false ex_ms map_laws map_empty true (fst (zo_sink _ _ _ _ ex_first0)) [c]) /\
  zo_res _ _ _ _ ex_second' = Ok (zlisting (zfiles ex_ms)) /\
  ms_view (zo_sink _ _ _ _ ex_second') (s2b "b") = Some (NFile (s2b "aabbcc")).
Proof.
  split; [|split; vm_compute; reflexivity].
  assert (Hlen : length (zo_log _ _ _ _ ex_first0) = 1%nat) by (vm_compute; reflexivity).
  pose proof (ZlFresh exA exC exF false ex_ms map_laws map_empty true map_empty [] ex_saver ex_io 50 (1%nat, []) None _
          (ZlStart _ _ _ _ _ _ _ _) ex_ios eq_refl) as Hl.
  change (zip_resume (crashing map_sink) exC exF ex_saver (zfiles ex_ms) ex_io 50 None (map_empty, None) (1%nat, [])) with ex_first0 in Hl.
  destruct ex_ck_some as (c & Hc & Hidx). exists c. split; [exact Hc|].
  unfold ex_ck in Hc. destruct (zo_log _ _ _ _ ex_first0) as [|[c0 s0] [|]]; try discriminate. cbn in Hc. injection Hc as ->.
  split; [|exact Hl].
  split; [reflexivity|]. split; [reflexivity|]. destruct (ec_src c) as [sc|] eqn:Hs; [right|left; unfold ez_spoil; cbn [ec_src]; rewrite Hs; reflexivity].
  exists ex_m2, sc, (drop_snap sc). rewrite Hidx. splits; auto.
  - unfold ez_spoil. cbn [ec_src]. rewrite Hs. reflexivity.
  - exact (drop_snap_spoilt exC flate_cfg exF KSeek sc).
Qed.

Definition et_spoil (c : teck (stk_source et_k)) : teck (stk_source et_k) :=
  MkEck (option_map drop_snap (ec_src c)) (ec_index c) (ec_entry c) (ec_prog c) (ec_data c).
Definition et_lose (c : teck (stk_source et_k)) : teck (stk_source et_k) :=
  MkEck None (ec_index c) (ec_entry c) (ec_prog c) (ec_data c).
Definition et_second' := et_resume map_sink (option_map et_spoil et_ck) (fst (to_sink _ _ _ et_first)) 0%nat.
Definition et_second'' := et_resume map_sink (option_map et_lose et_ck) (fst (to_sink _ _ _ et_first)) 0%nat.
Lemma et_second'_ok : exists l, to_res _ _ _ et_second' = Ok l. Proof. apply is_ok. vm_compute. reflexivity. Qed.
Lemma et_second''_ok : exists l, to_res _ _ _ et_second'' = Ok l. Proof. apply is_ok. vm_compute. reflexivity. Qed.
Example C65_tar_example :
  (exists c, et_ck = Some c /\ tspoilt et_k c (et_spoil c) /\ tspoilt et_k c (et_lose c) /\
     tlife false et_in 0 54 et_k et_fmt map_laws map_empty et_ms (fst (to_sink _ _ _ et_first)) [c]) /\
  (exists l, to_res _ _ _ et_second' = Ok l) /\ (exists l, to_res _ _ _ et_second'' = Ok l) /\
  ms_view (to_sink _ _ _ et_second') (s2b "b") = Some (NFile (s2b "aabbcc")) /\
  ms_view (to_sink _ _ _ et_second'') (s2b "b") = Some (NFile (s2b "aabbcc")).
Proof.
  split; [|split; [exact et_second'_ok|split; [exact et_second''_ok|split; vm_compute; reflexivity]]].
  destruct et_log_one as (c & s & Hlog). pose proof et_life as Hl. unfold et_ck. rewrite Hlog in *. exists c. split; [reflexivity|].
  split; [|split; [|exact Hl]].
  - split; [reflexivity|]. split; [reflexivity|]. split; [reflexivity|]. destruct (ec_src c) as [sc|] eqn:Hs; [right|left; unfold et_spoil; cbn [ec_src]; rewrite Hs; reflexivity].
    exists sc, (drop_snap sc). split; [reflexivity|]. split; [unfold et_spoil; cbn [ec_src]; rewrite Hs; reflexivity|]. exact (drop_snap_spoilt (ex_codec false false) gzip_cfg 300 KSeek sc).
  - split; [reflexivity|]. split; [reflexivity|]. split; [reflexivity|]. left. reflexivity.
Qed.
