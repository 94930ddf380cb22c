(** Props_shallow_tar2.v -- property C81 for the tar extractor, as far as it holds. *)
From Verif Require Import Base Base_proofs Source Contract Seek Decomp CodecSpec Drive SpoilSpec Stack_proofs Keeps_proofs Copier Sink SinkSpec Zip ZipSpec
  Tar TarSpec TarRead_proofs Tar_proofs Tar2_proofs ExCodec ExSink ExTar Props_tar Props_kept_tar Props_shallow_tar.
Open Scope Z_scope.

Section Track.
  Context (SK : sink) (F : tfmt) (k : stk) (SV : saver (s_ck (stk_source k)) tstate).
  Notation S := (stk_source k).
  Notation tx := (tx SK S SV).
  Notation ck_ x := (t_ck SK S SV x).
  Notation st_ x := (t_state SK S SV x).
  Notation log_ x := (t_log SK S SV x).

  (** Since the last save of [c]: the object is [c], but for the WriteOffset; or the entry is finished. *)
  Definition now_at (c : teck S) (x : tx) : Prop :=
    ec_entry c <> None /\ ec_entry (ck_ x) <> None /\ ec_src (ck_ x) = ec_src c /\ ec_index (ck_ x) = ec_index c /\ ec_prog (ck_ x) = ec_prog c /\
    ec_data (ck_ x) = ec_data c /\ ec_data c = Some (st_ x).
  Definition past (c : teck S) (x : tx) : Prop :=
    exists l l' s, ec_data c = Some (MkTs (Some l) s) /\ ts_result (st_ x) = Some (l ++ l') /\ l' <> [].
  Definition lasting (P : teck S -> Prop) (x : tx) : Prop := forall pre c s, log_ x = pre ++ [(c, s)] -> P c.
  Definition tracked (x : tx) : Prop := (exists l, ts_result (st_ x) = Some l) /\ lasting (fun c => now_at c x \/ past c x) x.
  Definition between (x : tx) : Prop := (exists l, ts_result (st_ x) = Some l) /\ lasting (fun c => past c x) x.
  Definition inside (x : tx) : Prop := tracked x /\ ec_entry (ck_ x) <> None.

  Lemma between_tracked x : between x -> tracked x.
  Proof. intros [A B]. split; [exact A|]. intros pre c s H. right. exact (B pre c s H). Qed.
  Lemma tracked_same x y : ck_ y = ck_ x -> st_ y = st_ x -> log_ y = log_ x -> tracked x -> tracked y.
  Proof.
    intros E1 E2 E3 [A B]. split; [rewrite E2; exact A|]. intros pre c s H. rewrite E3 in H. specialize (B pre c s H).
    unfold now_at, past in *. rewrite E1, E2. exact B.
  Qed.
  Lemma between_same x y : st_ y = st_ x -> log_ y = log_ x -> between x -> between y.
  Proof.
    intros E2 E3 [A B]. split; [rewrite E2; exact A|]. intros pre c s H. rewrite E3 in H. specialize (B pre c s H).
    unfold past in *. rewrite E2. exact B.
  Qed.
  Lemma inside_same x y : ck_ y = ck_ x -> st_ y = st_ x -> log_ y = log_ x -> inside x -> inside y.
  Proof. intros E1 E2 E3 [A B]. split; [eapply tracked_same; eauto|]. rewrite E1. exact B. Qed.
  Lemma inside_woff x w y : ck_ y = tck_set_woff S (ck_ x) w -> st_ y = st_ x -> log_ y = log_ x -> inside x -> inside y.
  Proof.
    intros E1 E2 E3 [[A B] D]. assert (D' : ec_entry (ck_ y) <> None) by (rewrite E1; cbn; destruct (ec_entry (ck_ x)); [discriminate|contradiction]).
    split; [|exact D']. split; [rewrite E2; exact A|]. intros pre c s H. rewrite E3 in H. destruct (B pre c s H) as [H1|H1].
    - left. destruct H1 as (N1 & _ & N2 & N3 & N4 & N5 & N6). unfold now_at. rewrite E2. rewrite E1 in D' |- *. cbn [ec_src ec_index ec_prog ec_data tck_set_woff] in *. splits; auto.
    - right. unfold past in *. rewrite E2. exact H1.
  Qed.

  Lemma inside_save prog s c x : inside x -> inside (fst (tar_on_save SK S SV prog s c x)).
  Proof.
    intros [[(l & A) B] D]. unfold tar_on_save. cbv zeta. destruct (sv_save SV _ _) as [v' r].
    set (c0 := MkEck (Some c) (ec_index (ck_ x)) (ec_entry (ck_ x)) (Some prog) (Some (MkTs (ts_result (st_ x)) (Some s)))).
    assert (H : forall y, ck_ y = c0 -> st_ y = MkTs (ts_result (st_ x)) (Some s) -> log_ y = log_ x ++ [(c0, t_sink SK S SV x)] -> inside y).
    { intros y E1 E2 E3. split; [|rewrite E1; exact D]. split; [rewrite E2; exists l; exact A|]. intros pre c' s' H. rewrite E3 in H.
      apply app_inj_tail in H. destruct H as [_ H]. injection H as <- _. left. unfold now_at. rewrite E1, E2. splits; auto. }
    destruct r as [[|]|e]; apply H; reflexivity.
  Qed.

  Lemma inside_copy w fuel X : inside (snd X) -> inside (snd (fst (copier_do (tar_cenv SK F S SV w) fuel X))).
  Proof.
    intros Hx. unfold copier_do. apply (copy_loop_keeps (tar_cenv SK F S SV w) (fun X => inside (snd X))).
    - intros [[src s] x] n H. cbn [ce_read tar_cenv snd] in *. unfold sr_read. destruct (Nat.min n (sr_nb s)); [exact H|].
      pose proof (stk_read_keeps k (tar_on_save SK S SV (s_progress S src) s) inside (fun c y => inside_save _ s c y) src x (Datatypes.S n0) H) as Hk.
      destruct (s_read S _ src x _) as [[src' x'] [d e| |]]; exact Hk.
    - intros [[src s] x] d H. cbn [ce_write tar_cenv snd fst] in *. destruct (k_write SK _ w d) as [st' [[n adv] e]]. cbn [fst snd].
      eapply inside_woff; [| | |exact H]; reflexivity.
    - intros [[src s] x] n H. cbn [ce_should tar_cenv snd fst] in *. destruct (sv_should SV _ n) as [v' b]. cbn [fst snd]. eapply inside_same; [| | |exact H]; reflexivity.
    - intros [[src s] x] H. exact H.
    - intros [[src s] x] H. cbn [ce_emit tar_cenv snd] in *. eapply inside_same; [| | |exact H]; reflexivity.
    - destruct X as [[src s] x]. cbn [ce_setstop tar_cenv snd fst] in *. eapply inside_same; [| | |exact Hx]; reflexivity.
  Qed.

  Lemma track_extract fuel src s e x : between x -> ec_entry (ck_ x) <> None ->
    let '(_, x', r) := tar_extract SK F S SV fuel src s e x in
    match r with Ok _ => between x' | _ => tracked x' end.
  Proof.
    intros Hb He. unfold tar_extract. destruct (en_kind e).
    - destruct (k_mkdir SK _ e) as [t [er|]]; [apply between_tracked|]; (eapply between_same; [| |exact Hb]; reflexivity).
    - destruct (k_symlink SK _ e _) as [t [er|]]; [apply between_tracked|]; (eapply between_same; [| |exact Hb]; reflexivity).
    - destruct (k_getw SK _ e) as [t [w|er| |]]; try (apply between_tracked; eapply between_same; [| |exact Hb]; reflexivity).
      assert (Hi : inside (snd (src, s, tx_sink SK S SV x t))).
      { split; [|exact He]. apply between_tracked. eapply between_same; [| |exact Hb]; reflexivity. }
      pose proof (inside_copy w fuel (src, s, tx_sink SK S SV x t) Hi) as Hc.
      destruct (copier_do _ fuel _) as [[[src2 s2] x2] r]. cbn [fst snd] in Hc. destruct Hc as [Hc Hn].
      destruct r as [u|er| |]; try (eapply tracked_same; [| | |exact Hc]; reflexivity).
      destruct Hc as [(l & A) B]. destruct (ec_entry (ck_ x2)) as [e'|] eqn:Ee; [|contradiction].
      split.
      + exists (l ++ [e']). cbn [t_state tx_sink tar_reset tx_ck tx_prog tx_state ts_result]. rewrite A. reflexivity.
      + intros pre c s0 H. specialize (B pre c s0 H).
        assert (Hp : exists l1 l2 s1, ec_data c = Some (MkTs (Some l1) s1) /\ l = l1 ++ l2).
        { destruct B as [(_ & _ & _ & _ & _ & _ & N6)|(l1 & l2 & s1 & N1 & N2 & _)].
          - exists l, [], (ts_tar (st_ x2)). rewrite app_nil_r. split; [|reflexivity]. rewrite N6. destruct (st_ x2). cbn in *. rewrite A. reflexivity.
          - exists l1, l2, s1. split; [exact N1|]. congruence. }
        destruct Hp as (l1 & l2 & s1 & N1 & ->). exists l1, (l2 ++ [e']), s1. split; [exact N1|]. split.
        * cbn [t_state tx_sink tar_reset tx_ck tx_prog tx_state ts_result]. rewrite A. cbn. rewrite app_assoc. reflexivity.
        * destruct l2; discriminate.
    - eapply between_same; [| |exact Hb]; reflexivity.
  Qed.

  Lemma track_loop fuel : forall lf src s i x, between x -> tracked (fst (tar_loop SK F S SV fuel lf src s i x)).
  Proof.
    induction lf as [|lf IH]; intros src s i x Hb; cbn [tar_loop].
    - destruct (t_stoperr SK S SV x); apply between_tracked; exact Hb.
    - destruct (t_stoperr SK S SV x); [apply between_tracked; exact Hb|].
      assert (Hi : let '(_, x', r) := tar_iter SK F S SV fuel src s i x in match r with Ok _ => between x' | _ => tracked x' end).
      { unfold tar_iter. cbn [ec_entry]. destruct (ec_entry (ck_ x)) as [e|] eqn:Ee.
        - apply track_extract; [eapply between_same; [| |exact Hb]; reflexivity|]. cbn. try rewrite Ee; discriminate.
        - destruct (sr_next F S fuel src s) as [[src' s'] [h|er| |]].
          + destruct (tar_entry_of h) as [e|].
            * apply track_extract; [eapply between_same; [| |exact Hb]; reflexivity|]. cbn. discriminate.
            * eapply between_same; [| |exact Hb]; reflexivity.
          + destruct er; try (apply between_tracked; eapply between_same; [| |exact Hb]; reflexivity).
            eapply between_same; [| |exact Hb]; reflexivity.
          + apply between_tracked; eapply between_same; [| |exact Hb]; reflexivity.
          + apply between_tracked; eapply between_same; [| |exact Hb]; reflexivity. }
      destruct (tar_iter SK F S SV fuel src s i x) as [[[src' s'] x'] [u|er| |]]; [exact (IH _ _ _ _ Hi)|exact Hi|exact Hi|exact Hi].
  Qed.

  (** The entries listed by a checkpoint's TarExtractorState. *)
  Definition listed (c : teck S) : option (list entry) := match ec_data c with Some (MkTs l _) => l | None => None end.


  Lemma run_shallow fuel src s ck0 ts keep st v fin pre ck s0 : (exists l, ts_result ts = Some l) ->
    let out := tar_run SK F S SV fuel src s ck0 ts keep st v in
    fin = st_ (fst (tar_loop SK F S SV fuel fuel (s_setssc S src) s (ec_index ck0) (MkTx SK S SV st ck0 ts v false None [] []))) ->
    to_log _ _ _ out = pre ++ [(ck, s0)] ->
    let sh := tar_shallow S fin (to_obj _ _ _ out) ck in
    ec_entry sh = ec_entry ck -> listed sh = listed ck -> sh = ck.
  Proof.
    intros Hts out Hfin Hlog sh He Hl. subst out. unfold tar_run in *.
    set (x0 := MkTx SK S SV st ck0 ts v false None [] []) in *.
    assert (Hb : between x0). { split; [exact Hts|]. intros p c s1 H. destruct p; discriminate. }
    pose proof (track_loop fuel fuel (s_setssc S src) s (ec_index ck0) x0 Hb) as [(l & A) B].
    destruct (tar_loop SK F S SV fuel fuel (s_setssc S src) s (ec_index ck0) x0) as [x r]. cbn [fst to_log to_obj] in *.
    specialize (B pre ck s0 Hlog). subst fin. destruct B as [(N1 & N2 & N3 & N4 & N5 & N6 & N7)|(l1 & l2 & s1 & N1 & N2 & N3)].
    - subst sh. unfold tar_shallow in *. rewrite N7 in *. destruct (st_ x) as [[rs|] sr0] eqn:Es; cbn [ts_result ec_entry] in *; [|discriminate].
      destruct ck as [a1 a2 a3 a4 a5]; cbn [ec_src ec_index ec_entry ec_prog ec_data] in *. subst. reflexivity.
    - exfalso. unfold listed, sh, tar_shallow in Hl. cbn [ec_data] in Hl. rewrite N1 in Hl. destruct (st_ x) as [rs sr0]. cbn [ts_result] in N2. rewrite Hl in N2.
      injection N2 as N2. apply N3. apply (app_inv_head l1). rewrite app_nil_r. congruence.
  Qed.

  Lemma resume_shallow src fuel c st v fin pre ck s0 :
    let out := tar_resume SK F S SV src fuel c st v in
    tar_resume_state SK F S SV src fuel c st v = Some fin -> to_log _ _ _ out = pre ++ [(ck, s0)] ->
    let sh := tar_shallow S fin (to_obj _ _ _ out) ck in
    ec_entry sh = ec_entry ck -> listed sh = listed ck -> sh = ck.
  Proof.
    intros out Hfin Hlog. assert (Hnil : forall p (a : teck S * k_st SK), [] = p ++ [a] -> False) by (intros [|] a H; discriminate).
    subst out. unfold tar_resume, tar_resume_state in *.
    destruct (tar_point S c) as [[[ck0 ts] s]|] eqn:Ep.
    - assert (Hts : exists l, ts_result ts = Some l).
      { revert Ep. unfold tar_point. destruct c as [c0|]; [|discriminate]. destruct (ec_data c0) as [[[l|] [s1|]]|]; try discriminate.
        intros [= <- <- <-]. exists l. reflexivity. }
      destruct (s_resume S src _) as [src1 [o|e| |]]; cbn [to_log] in Hlog; try (destruct (Hnil _ _ Hlog)).
      destruct (if o <? sr_off s then _ else _) as [[src2 u] [o2|e| |]]; cbn [to_log] in Hlog; try (destruct (Hnil _ _ Hlog)).
      injection Hfin as Hfin. eapply run_shallow; [exact Hts|symmetry; exact Hfin|exact Hlog].
    - destruct (s_resume S src None) as [src1 [o|e| |]]; cbn [to_log] in Hlog; try (destruct (Hnil _ _ Hlog)).
      injection Hfin as Hfin. eapply run_shallow; [exists []; reflexivity|symmetry; exact Hfin|exact Hlog].
  Qed.
End Track.

Section Props.
  Context (pol : bool) (data : bytes) (start size : Z) (k : stk) (D : bytes) (tm : gerr) (F : tfmt) (N : nat).
  Context (ms : list tmember) (ok : bool) (SK : sink) (L : sink_laws SK).
  Notation S := (stk_source k).
  Notation trun := (trun pol data start size k F L).
  Notation tlife := (tlife pol data start size k F L).
  Context (HA : tarchive pol data start size k D tm F N ms ok L).

  (** [sh] is what a shallow copy of the last checkpoint that a run saved has become when the run was over,
      however it ended, after any history; and it still has the WriteOffset and
      the list of finished entries that it had when Save was called: no byte of the entry
      was written in between. *)
  Definition untouched_copy st0 (SV : saver (s_ck S) tstate) rs fuel c st n v (sh : teck S) : Prop :=
    exists cks pre ck s0 fin,
      tlife st0 ms st cks /\ (no_point k c \/ exists ck0, c = Some ck0 /\ In ck0 cks) /\ rs_ok pol data rs /\
      let out := tar_resume (crashing SK) F S SV (tsrc start size k rs) fuel c (st, n) v in
      to_log _ _ _ out = pre ++ [(ck, s0)] /\
      tar_resume_state (crashing SK) F S SV (tsrc start size k rs) fuel c (st, n) v = Some fin /\
      sh = tar_shallow S fin (to_obj _ _ _ out) ck /\
      ec_entry sh = ec_entry ck /\ listed k sh = listed k ck.

  Lemma untouched_run st0 SV rs fuel c st n v sh SV2 rs2 fuel2 v2 out2 : untouched_copy st0 SV rs fuel c st n v sh -> rs_ok pol data rs2 ->
    let st2 := fst (to_sink _ _ _ (tar_resume (crashing SK) F S SV (tsrc start size k rs) fuel c (st, n) v)) in
    out2 = tar_resume SK F S SV2 (tsrc start size k rs2) fuel2 (Some sh) st2 v2 -> trun st0 ms SV2 (Some sh) rs2 fuel2 st2 out2.
  Proof.
    intros (cks & pre & ck & s0 & fin & Hl & Hc & Hr & Hlog & Hfin & Hsh & He & Hd) Hr2 st2 Hout2.
    set (out := tar_resume (crashing SK) F S SV (tsrc start size k rs) fuel c (st, n) v) in *.
    assert (E : sh = ck). { rewrite Hsh in He, Hd |- *. exact (resume_shallow (crashing SK) F k SV _ fuel c (st, n) v fin pre ck s0 Hfin Hlog He Hd). }
    clear Hsh He Hd. subst sh.
    assert (Hrev : rev (map fst (to_log _ _ _ out)) = [] ++ ck :: rev (map fst pre)).
    { rewrite Hlog, map_app, rev_app_distr. reflexivity. }
    destruct Hc as [Hc|(ck0 & -> & Hin)].
    - refine (TrResume pol data start size k F L st0 ms SV2 st2 [] ck (rev (map fst pre)) rs2 fuel2 v2 out2 _ Hr2 Hout2).
      rewrite <- Hrev. exact (TfFresh _ _ _ _ _ _ _ _ _ _ _ _ _ _ _ _ _ _ Hl Hr Hc eq_refl).
    - apply in_split in Hin. destruct Hin as (later & earlier & ->).
      refine (TrResume pol data start size k F L st0 ms SV2 st2 [] ck (rev (map fst pre) ++ ck0 :: earlier) rs2 fuel2 v2 out2 _ Hr2 Hout2).
      change ([] ++ ck :: rev (map fst pre) ++ ck0 :: earlier) with (([] ++ ck :: rev (map fst pre)) ++ ck0 :: earlier). rewrite <- Hrev.
      refine (TfResume _ _ _ _ _ _ _ _ _ _ _ _ _ _ _ _ _ _ _ [] Hl Hr eq_refl _). intros c' [].
  Qed.

  (** C81 (tar), as far as it holds. Resuming from such a copy, over what the run left, gives
      exactly the archive and its list if it ends without error ... *)
  Theorem C81_tar_shallow_partial st0 SV rs fuel c st n v sh SV2 rs2 fuel2 v2 out2 l : kl_inv L st0 ->
    untouched_copy st0 SV rs fuel c st n v sh -> rs_ok pol data rs2 ->
    out2 = tar_resume SK F S SV2 (tsrc start size k rs2) fuel2 (Some sh)
             (fst (to_sink _ _ _ (tar_resume (crashing SK) F S SV (tsrc start size k rs) fuel c (st, n) v))) v2 ->
    to_res _ _ _ out2 = Ok l ->
    extracted L (titems ms) (kl_view L st0) (to_sink _ _ _ out2) /\ l = tfiles L ms.
  Proof.
    intros Hi Hu Hr2 Hout2 Hres. pose proof (untouched_run _ _ _ _ _ _ _ _ _ _ _ _ _ _ Hu Hr2 Hout2) as Hrun. split.
    - exact (proj1 (C45_tar_resume_exact pol data start size k D tm F N ms ok SK L HA st0 SV2 (Some sh) rs2 fuel2 _ out2 l Hi Hrun Hres)).
    - exact (C46_tar_result_partial pol data start size k D tm F N ms ok SK L HA st0 SV2 (Some sh) rs2 fuel2 _ out2 l Hi Hrun Hres).
  Qed.

  (** ... and it does end without error if nothing fails any more. *)
  Theorem C81_tar_shallow_completes_partial : tm = EEof -> ok = true -> tsound L ms ->
    exists B, forall st0 SV rs fuel c st n v sh SV2 rs2 fuel2 v2 out2, kl_inv L st0 ->
      untouched_copy st0 SV rs fuel c st n v sh -> rs_ok pol data rs2 ->
      let st2 := fst (to_sink _ _ _ (tar_resume (crashing SK) F S SV (tsrc start size k rs) fuel c (st, n) v)) in
      kl_clean L st2 -> rs_good rs2 -> saver_goes_on SV2 -> (B < fuel2)%nat ->
      out2 = tar_resume SK F S SV2 (tsrc start size k rs2) fuel2 (Some sh) st2 v2 ->
      exists l, to_res _ _ _ out2 = Ok l /\ extracted L (titems ms) (kl_view L st0) (to_sink _ _ _ out2).
  Proof.
    intros Ht Hok Hs. destruct (C45_tar_resume_completes pol data start size k D tm F N ms ok SK L HA Ht Hok Hs) as (B & H). exists B.
    intros st0 SV rs fuel c st n v sh SV2 rs2 fuel2 v2 out2 Hi Hu Hr2 st2 Hcl Hg Hsv Hf Hout2.
    exact (H st0 SV2 (Some sh) rs2 fuel2 st2 out2 Hi (untouched_run _ _ _ _ _ _ _ _ _ _ _ _ _ _ Hu Hr2 Hout2) Hcl Hg Hsv Hf).
  Qed.
End Props.

(** Not vacuous: the run of Props_kept_tar.v dies in the first operation on the sink after Save (at byte 4 of 6 of the
    third entry). *)
Definition est_out := ek_run 5.
Definition est_fin := tar_resume_state (crashing map_sink) et_fmt (stk_source et_k) et_saver (tsrc 0 54 et_k et_rs) 300 None (map_empty, Some 5%nat) 0%nat.
Definition est_sh : option (teck (stk_source et_k)) := match to_log _ _ _ est_out, est_fin with
  | [(c, _)], Some fin => Some (tar_shallow (stk_source et_k) fin (to_obj _ _ _ est_out) c)
  | _, _ => None
  end.
Definition est_again := et_resume map_sink est_sh (fst (to_sink _ _ _ est_out)) 0%nat.
Lemma est_archive : tarchive false et_in 0 54 et_k et_D EEof et_fmt 5 et_ms true map_laws. Proof. exact et_archive. Qed.
Lemma est_res : to_res _ _ _ est_out = Err EIO. Proof. vm_compute. reflexivity. Qed.
Lemma est_log : length (to_log _ _ _ est_out) = 1%nat. Proof. vm_compute. reflexivity. Qed.
Lemma est_has : match est_fin with Some _ => true | None => false end = true. Proof. vm_compute. reflexivity. Qed.
Lemma est_entry : option_map ec_entry est_sh = option_map ec_entry (hd_error (map fst (to_log _ _ _ est_out))). Proof. vm_compute. reflexivity. Qed.
Lemma est_listed : option_map (listed et_k) est_sh = option_map (listed et_k) (hd_error (map fst (to_log _ _ _ est_out))). Proof. vm_compute. reflexivity. Qed.
Lemma est_at : option_map (fun c => (ec_index c, option_map en_woff (ec_entry c))) est_sh = Some (2, Some 4). Proof. vm_compute. reflexivity. Qed.
Lemma est_again_ok : exists l, to_res _ _ _ est_again = Ok l. Proof. apply is_ok. vm_compute. reflexivity. Qed.
Lemma untouched_intro pol data start size k F ms SK (L : sink_laws SK) st0 SV rs fuel c st n v cks out fo sh : tlife pol data start size k F L st0 ms st cks ->
  (no_point k c \/ exists ck0, c = Some ck0 /\ In ck0 cks) -> rs_ok pol data rs ->
  out = tar_resume (crashing SK) F (stk_source k) SV (tsrc start size k rs) fuel c (st, n) v ->
  fo = tar_resume_state (crashing SK) F (stk_source k) SV (tsrc start size k rs) fuel c (st, n) v ->
  length (to_log _ _ _ out) = 1%nat -> match fo with Some _ => true | None => false end = true ->
  sh = match to_log _ _ _ out, fo with
       | [(c, _)], Some fin => Some (tar_shallow (stk_source k) fin (to_obj _ _ _ out) c)
       | _, _ => None
       end ->
  option_map ec_entry sh = option_map ec_entry (hd_error (map fst (to_log _ _ _ out))) ->
  option_map (listed k) sh = option_map (listed k) (hd_error (map fst (to_log _ _ _ out))) ->
  exists x, sh = Some x /\ untouched_copy pol data start size k F ms SK L st0 SV rs fuel c st n v x.
Proof.
  intros Hl Hc Hr Hout Hfo H1 H2 Hsh H3 H4. destruct (to_log _ _ _ out) as [|[ck s] [|]] eqn:E; try discriminate.
  destruct fo as [fin|]; [|discriminate]. subst sh. eexists. split; [reflexivity|]. exists cks, [], ck, s, fin.
  cbn [option_map hd_error map fst] in H3, H4. injection H3 as H3. injection H4 as H4.
  cbv zeta. rewrite <- Hout, <- Hfo. splits; auto.
Qed.
Lemma est_out_is : est_out = tar_resume (crashing map_sink) et_fmt (stk_source et_k) et_saver (tsrc 0 54 et_k et_rs) 300 None (map_empty, Some 5%nat) 0%nat.
Proof. unfold est_out, ek_run. reflexivity. Qed.
Lemma est_fin_is : est_fin = tar_resume_state (crashing map_sink) et_fmt (stk_source et_k) et_saver (tsrc 0 54 et_k et_rs) 300 None (map_empty, Some 5%nat) 0%nat.
Proof. unfold est_fin. reflexivity. Qed.
Lemma est_sh_is : est_sh = match to_log _ _ _ est_out, est_fin with
  | [(c, _)], Some fin => Some (tar_shallow (stk_source et_k) fin (to_obj _ _ _ est_out) c)
  | _, _ => None
  end.
Proof. unfold est_sh. reflexivity. Qed.
Lemma est_untouched : exists sh, est_sh = Some sh /\
  untouched_copy false et_in 0 54 et_k et_fmt et_ms map_sink map_laws map_empty et_saver et_rs 300 None map_empty (Some 5%nat) 0%nat sh.
Proof.
  exact (untouched_intro false et_in 0 54 et_k et_fmt et_ms map_sink map_laws map_empty et_saver et_rs 300 None map_empty (Some 5%nat) 0%nat [] est_out est_fin est_sh
    (TfStart _ _ _ _ _ _ _ _ _) (or_introl (or_introl eq_refl)) et_rs_ok est_out_is est_fin_is est_log est_has est_sh_is est_entry est_listed).
Qed.
Example C81_tar_example :
  tarchive false et_in 0 54 et_k et_D EEof et_fmt 5 et_ms true map_laws /\ to_res _ _ _ est_out = Err EIO /\
  (exists sh, est_sh = Some sh /\
    untouched_copy false et_in 0 54 et_k et_fmt et_ms map_sink map_laws map_empty et_saver et_rs 300 None map_empty (Some 5%nat) 0%nat sh) /\
  option_map (fun c => (ec_index c, option_map en_woff (ec_entry c))) est_sh = Some (2, Some 4) /\
  exists l, to_res _ _ _ est_again = Ok l.
Proof.
  split; [exact est_archive|]. split; [exact est_res|]. split; [exact est_untouched|]. split; [exact est_at|exact est_again_ok].
Qed.
