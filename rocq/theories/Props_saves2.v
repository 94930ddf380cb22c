(** Props_saves2.v -- properties C70 and C71: how extractors use the save consumer,
    whatever the archive, the sink, the consumer and the checkpoint. *)
From Verif Require Import Base Base_proofs Source Seek Decomp CodecSpec Contract Drive Stack_proofs Copier Sink Zip Tar CallsSpec SavesSpec Saves_proofs Saves2_proofs.

Lemma with_stack_eof e : with_stack e <> EEof.
Proof. destruct e; discriminate. Qed.
Definition answers {CK DT} (SV : saver CK DT) (n : Z) (b : bool) : Prop := exists v, snd (sv_should SV v n) = b.
Lemma copy_buf_32k : Z.of_nat copy_buf = 32 * 1024.
Proof. reflexivity. Qed.

Lemma never_saves {CK DT} (SV : saver CK DT) t : asked_for t -> Forall (fair (answers SV)) t -> (forall v n, snd (sv_should SV v n) = false) -> ~ In SSave t.
Proof.
  intros A B Hno Hi. apply in_split in Hi. destruct Hi as (p & q & ->).
  specialize (A (p ++ [SSave]) q). rewrite <- app_assoc in A. specialize (A eq_refl). rewrite saves_app, yeses_app in A.
  assert (Hy : yeses p = 0%nat).
  { apply Forall_app in B. destruct B as [B _]. clear -B Hno. induction B as [|[n b|] p Hv B IH]; [reflexivity| |exact IH].
    destruct Hv as [_ [v Hv]]. rewrite Hno in Hv. subst b. exact IH. }
  rewrite Hy in A. cbn in A. lia.
Qed.

Section Zip.
  Context (SK : sink) (C : codec) (fuel0 : nat) (SV : saver (zck C fuel0) unit) (strict : Prop).
  Notation NS := (audited SK).
  Notation RV := (recorded SV).
  Notation zx := (zx NS C fuel0 RV).
  Notation sevs x := (snd (x_sv NS C fuel0 RV x)).
  Notation wr x := (written (snd (x_sink NS C fuel0 RV x))).
  Definition zbook (st : Prop) (x : zx) : Prop := book (answers SV) st (sevs x) (wr x).
  Definition zend (x : zx) (r : res unit) : Prop := r <> Panic -> r <> Hang -> match r with Ok _ => zbook strict x | _ => zbook False x end.

  Lemma zend_err x e : zbook strict x -> zend x (Err e).
  Proof. intros H _ _. eapply book_weak; [exact H|lia]. Qed.
  Lemma zend_ws x r : zend x r -> zend x (ws r).
  Proof. destruct r; auto. intros H _ _. apply H; discriminate. Qed.

  Lemma onsave_not_eof {CK} inj w done total (c : sckpt CK) (x : zx) : snd (zip_on_save NS C fuel0 RV inj w done total c x) <> CErr EEof.
  Proof.
    unfold zip_on_save. destruct (k_sync NS _ w) as [t [e|]]; [intros [= H]; exact (with_stack_eof _ H)|].
    destruct (sv_save RV _ _) as [v' [[|]|e]]; try discriminate. intros [= H]; exact (with_stack_eof _ H).
  Qed.
  Lemma onsave_calls {CK} inj w done total : forall evs (x x' : zx), calls (CK := CK) (zip_on_save NS C fuel0 RV inj w done total) x evs x' ->
    exists m, (m <= length evs)%nat /\ sevs x' = sevs x ++ repeat SSave m /\ wr x' = wr x.
  Proof.
    induction evs as [|[c r] evs IH]; cbn [calls length]; intros x x' H.
    - subst x'. exists 0%nat. rewrite app_nil_r. auto.
    - destruct H as (x1 & H1 & H2). apply IH in H2. destruct H2 as (m & M1 & M2 & M3).
      unfold zip_on_save in H1. cbn [k_sync audited] in H1. destruct (k_sync SK _ w) as [t ro].
      assert (Hw : written (snd (x_sink NS C fuel0 RV x) ++ [ASync w]) = wr x) by (rewrite written_app; cbn; lia).
      destruct ro as [e|].
      + injection H1 as <- _. exists m. cbn [x_sv x_sink zx_ck zx_sink snd] in *. splits; [lia|exact M2|etransitivity; [exact M3|exact Hw]].
      + cbn [sv_save recorded] in H1. destruct (sv_save SV _ _) as [v' r'].
        assert (E : sevs x1 = sevs x ++ [SSave] /\ wr x1 = wr x).
        { destruct r' as [[|]|e]; injection H1 as <- _; cbn [x_sv x_sink snd]; auto. }
        destruct E as [E1 E2]. exists (Datatypes.S m). splits; [lia| |congruence].
        rewrite M2, E1, <- app_assoc. reflexivity.
  Qed.

  Lemma z_copier k inj w done total fuel src x r sx : bl_ok (stk_budget k) src -> bl (stk_budget k) src = 0%nat -> (strict -> lz k src) -> zbook strict x ->
    copier_do (zip_cenv NS C fuel0 RV (stk_source k) inj w done total) fuel (src, x) = (sx, r) -> zend (snd sx) r.
  Proof.
    intros Hok Hbl Hlz Hb Hc. unfold copier_do in Hc.
    pose proof (copy_loop_step (zip_cenv NS C fuel0 RV (stk_source k) inj w done total)
      (fun sx => bl_ok (stk_budget k) (fst sx) /\ (strict -> lz k (fst sx)) /\ zbook strict (snd sx) /\
         (saves (sevs (snd sx)) + bl (stk_budget k) (fst sx) <= yeses (sevs (snd sx)))%nat)
      (fun sx r => match r with Ok _ => zbook strict (snd sx) | _ => zbook False (snd sx) end)) as L.
    specialize (L) as L.
    match type of L with ?A -> _ => assert (HA : A) end.
    { clear. intros [src x] pc (Hok & Hlz & Hb & Hn). unfold copy_step. cbn [ce_read zip_cenv fst snd] in *.
      destruct (s_read _ _ src x copy_buf) as [[src1 x1] rr] eqn:Er. destruct rr as [d re| |]; [|congruence|congruence].
      destruct (bl_read (stk_budget k) _ _ _ _ _ _ _ _ _ Hok Er) as (evs & C1 & C2 & C3 & _).
      pose proof (stk_read_len k _ _ _ _ _ _ _ _ _ Er) as Hlen.
      assert (Hlz1 : strict -> lz k src1 /\ (re = Some EEof -> d = [])).
      { intros Hs. destruct (lz_read k _ _ _ _ _ _ _ _ (onsave_not_eof inj w done total) (Hlz Hs) Er) as [L1 L2]. split; [exact L1|].
        intros ->. apply L2. reflexivity. }
      apply onsave_calls in C1. destruct C1 as (m & M1 & M2 & M3).
      assert (Hb1 : zbook strict x1). { unfold zbook. rewrite M2, M3. apply book_saves; [exact Hb|lia]. }
      assert (Hn1 : (saves (sevs x1) + bl (stk_budget k) src1 <= yeses (sevs x1))%nat).
      { rewrite M2, saves_app, yeses_app, saves_repeat, yeses_repeat. lia. }
      cbn [ce_write zip_cenv fst snd k_write audited]. destruct (k_write SK _ w d) as [t [[n adv] we]].
      assert (Hz : 0 <= zlen d) by (unfold zlen; lia).
      match goal with |- context [zx_ck NS C fuel0 RV ?y ?c] => set (x2 := zx_ck NS C fuel0 RV y c) end.
      assert (S2 : sevs x2 = sevs x1) by reflexivity.
      assert (W2 : wr x2 = wr x1 + zlen d). { cbn [x2 x_sink zx_ck zx_sink snd]. rewrite written_app. cbn. lia. }
      clearbody x2. destruct we as [e|].
      { intros _ _. cbn [snd fst]. unfold zbook. rewrite S2, W2. eapply book_weak; [exact Hb1|lia]. }
      match goal with |- context [if ?b then ce_emit ?E ?y else ?y] => assert (Hx3 : exists x3, (if b then ce_emit E y else y) = (src1, x3) /\ sevs x3 = sevs x2 /\ wr x3 = wr x2);
        [destruct b; eexists; cbn [ce_emit zip_cenv fst snd]; splits; reflexivity|] end.
      destruct Hx3 as (x3 & -> & S3 & W3).
      destruct re as [e|].
      { destruct e; cbn [snd]; intros _ _; try (unfold zbook; rewrite S3, W3, S2, W2; eapply book_weak; [exact Hb1|lia]).
        unfold zbook. rewrite S3, W3, S2, W2. destruct Hb1 as (B1 & B2 & B3 & B4). unfold book. split; [exact B1|]. split; [exact B2|]. split; [lia|].
        intros Hs. destruct (Hlz1 Hs) as [_ Hd]. rewrite (Hd eq_refl). rewrite (B4 Hs). unfold zlen. cbn. lia. }
      cbn [ce_should zip_cenv fst snd sv_should recorded]. match goal with |- context [sv_should SV ?v (zlen d)] => assert (Ha : answers SV (zlen d) (snd (sv_should SV v (zlen d)))) by (exists v; reflexivity);
        destruct (sv_should SV v (zlen d)) as [v' b] end. cbn [snd] in Ha.
      assert (Hlz2 : strict -> lz k src1) by (intros Hs; apply Hlz1; exact Hs).
      assert (Hb4 : zbook strict (zx_sv NS C fuel0 RV x3 (v', sevs x3 ++ [SShould (zlen d) b]))).
      { unfold zbook. cbn [x_sv x_sink zx_sv snd]. rewrite S3, W3, S2, W2. apply book_should; [|exact Ha|exact Hb1]. unfold zlen in *. pose proof copy_buf_32k. lia. }
      assert (Hn4 : (saves (sevs x3 ++ [SShould (zlen d) b]) + bl (stk_budget k) src1 + (if b then 1 else 0) <= yeses (sevs x3 ++ [SShould (zlen d) b]))%nat).
      { rewrite S3, S2, saves_app, yeses_app. destruct b; unfold saves at 2, yeses at 2; cbn [filter length]; lia. }
      destruct b; cbn [ce_want zip_cenv fst snd].
      - destruct (bl_want (stk_budget k) src1 C3) as [W4 W5]. splits; [exact W4|intros Hs; apply lz_want; auto|exact Hb4|].
        cbn [x_sv zx_sv snd] in *. lia.
      - splits; [exact C3|exact Hlz2|exact Hb4|]. cbn [x_sv zx_sv snd] in *. lia. }
    specialize (L HA). clear HA.
    match type of L with ?A -> _ => assert (HA : A) by (intros y (_ & _ & Hy & _); exact Hy) end.
    specialize (L HA fuel (ce_setstop (zip_cenv NS C fuel0 RV (stk_source k) inj w done total) false (src, x)) 0). clear HA.
    rewrite Hc in L. destruct sx as [src' x']. cbn [snd fst] in *. unfold zend. apply L.
    cbn [ce_setstop zip_cenv fst snd]. splits; [exact Hok|exact Hlz|exact Hb|].
    cbn [x_sv zx_stop]. rewrite Hbl. destruct Hb as [Hb _]. pose proof (asked_all _ Hb). lia.
  Qed.

  Lemma zbook_getw x t e got : zbook strict x -> book (answers SV) strict (sevs x) (written (snd (x_sink NS C fuel0 RV x) ++ [AGetWriter (W := k_w SK) e got])) /\ t = t :> nat.
  Proof. intros H. split; [|reflexivity]. rewrite written_app. cbn. rewrite Z.add_0_r. exact H. Qed.

  Lemma no_cb_fine {CK} : forall (c : sckpt CK) y, snd (no_cb c y) <> CErr EEof.
  Proof. discriminate. Qed.

  Lemma z_copy fuel k inj prj rs cs done total e x : (strict -> plain_eof k rs) -> zbook strict x ->
    zend (fst (zip_copy NS C fuel0 RV fuel k inj prj rs cs done total e x)) (snd (zip_copy NS C fuel0 RV fuel k inj prj rs cs done total e x)).
  Proof.
    intros Hpl Hx. unfold zip_copy. destruct (stk_new_budget rs 0 cs k) as [N1 N2].
    pose proof (fun Hs => lz_new k rs 0 cs (Hpl Hs)) as N3.
    destruct (s_resume _ _ _) as [src1 r1] eqn:Er. pose proof (fun Hs => lz_resume k _ (option_map prj (ec_src (x_ck NS C fuel0 RV x))) (N3 Hs)) as N4. rewrite Er in N4. cbn [fst] in N4.
    destruct r1 as [o|er| |]; [|apply zend_err; exact Hx|intros H; contradiction|intros _ H; contradiction].
    destruct (bl_resume (stk_budget k) _ _ _ _ N1 Er ltac:(discriminate) ltac:(discriminate)) as [R1 R2].
    destruct (if o <? en_woff e then _ else _) as [[src2 u] r2] eqn:Ed.
    assert (Hd : r2 <> Panic -> r2 <> Hang -> bl_ok (stk_budget k) src2 /\ (bl (stk_budget k) src2 <= bl (stk_budget k) src1)%nat /\ (strict -> lz k src2)).
    { intros Hp Hh. destruct (o <? en_woff e); [|injection Ed as <- _ _; splits; auto].
      destruct (left_discard _ (stk_budget k) _ _ _ _ _ _ _ _ _ R1 Ed Hp Hh) as [D1 D2]. splits; auto.
      intros Hs. pose proof (lz_discard k _ no_cb no_cb_fine fuel src1 tt (en_woff e - o) (N4 Hs)) as D3. rewrite Ed in D3. exact D3. }
    destruct r2 as [u2|er| |]; [|apply zend_err; exact Hx|intros H; contradiction|intros _ H; contradiction].
    destruct (Hd ltac:(discriminate) ltac:(discriminate)) as (D1 & D2 & D3).
    cbn [k_getw audited]. destruct (k_getw SK _ e) as [t gr].
    destruct (zbook_getw x 0 e (match gr with Ok w => Some w | _ => None end) Hx) as [Hg _].
    destruct gr as [w'|er| |]; cbn [fst snd]; [|apply zend_err; exact Hg|intros H; contradiction|intros _ H; contradiction].
    match goal with |- context [copier_do ?E fuel (?a, ?b)] => pose proof (z_copier k inj w' done total fuel a b) as Hc;
      destruct (copier_do E fuel (a, b)) as [[s3 x2] r3] end.
    cbn [fst snd] in *. apply zend_ws. destruct (bl_setssc (stk_budget k) src2 D1) as [S1 S2].
    refine (Hc r3 (s3, x2) S1 _ _ _ eq_refl); [lia|intros Hs; apply lz_setssc; auto|exact Hg].
  Qed.

  Lemma z_iocopy w fin : forall chunks x, zbook False x ->
    zbook False (fst (zip_io_copy NS C fuel0 RV w chunks fin x)).
  Proof.
    induction chunks as [|d ds IH]; intros x Hx; cbn [zip_io_copy]; [exact Hx|].
    cbn [k_write audited]. destruct (k_write SK _ w d) as [t [[n adv] e]].
    assert (Hz : 0 <= zlen d) by (unfold zlen; lia).
    assert (H1 : book (answers SV) False (sevs x) (written (snd (x_sink NS C fuel0 RV x) ++ [AWrite w d]))).
    { rewrite written_app. eapply book_weak; [exact Hx|]. cbn. lia. }
    destruct e; [exact H1|]. destruct (n =? length d)%nat; [|exact H1]. apply IH. exact H1.
  Qed.

  Definition zplain (io : zio) (zf : zfile) : Prop :=
    cd_eager C = false /\ (forall off n, plain_reader (zi_section io off n)) /\ (zf_method zf = zip_store \/ zf_method zf = zip_deflate).

  Lemma z_entry io fuel i zf done total x : (strict -> zplain io zf) -> zbook strict x ->
    zend (fst (zip_entry NS C fuel0 RV io fuel i zf done total x)) (snd (zip_entry NS C fuel0 RV io fuel i zf done total x)).
  Proof.
    intros Hpl Hx. unfold zip_entry. cbv zeta. set (e := match ec_entry _ with Some e => e | None => zip_entry_of zf end).
    match goal with |- context[zx_ck NS C fuel0 RV x ?c] => set (x1 := zx_ck NS C fuel0 RV x c) end.
    assert (H1 : zbook strict x1) by exact Hx. clearbody x1 e.
    destruct (Z.odd _); [apply zend_err; exact H1|]. destruct (en_kind e).
    - cbn [k_mkdir audited]. destruct (k_mkdir SK _ e) as [t er].
      match goal with |- context [zx_sink NS C fuel0 RV x1 ?y] => assert (H2 : zbook strict (zx_sink NS C fuel0 RV x1 y)) end.
      { unfold zbook. cbn [x_sink zx_sink snd x_sv]. rewrite written_app. cbn. rewrite Z.add_0_r. exact H1. }
      destruct er; [apply zend_err|intros _ _]; exact H2.
    - destruct (zi_open io) as [[chunks [er|]]|er| |]; [apply zend_err; exact H1| |apply zend_err; exact H1|intros H; contradiction|intros _ H; contradiction].
      cbn [k_symlink audited]. destruct (k_symlink SK _ e _) as [t er].
      match goal with |- context [zx_sink NS C fuel0 RV x1 ?y] => assert (H2 : zbook strict (zx_sink NS C fuel0 RV x1 y)) end.
      { unfold zbook. cbn [x_sink zx_sink snd x_sv]. rewrite written_app. cbn. rewrite Z.add_0_r. exact H1. }
      destruct er; [apply zend_err|intros _ _]; exact H2.
    - destruct (_ || _) eqn:Em.
      + destruct (zi_dataoff io) as [off|er| |]; [|apply zend_err; exact H1|intros H; contradiction|intros _ H; contradiction].
        destruct (zf_method zf =? zip_store); apply z_copy; auto.
        all: intros Hs; destruct (Hpl Hs) as (P1 & P2 & _); cbn; auto.
      + assert (Hns : ~ strict).
        { intros Hs. destruct (Hpl Hs) as (_ & _ & [Hm | Hm]); rewrite Hm in Em; discriminate. }
        assert (HF : forall y, zbook False y -> zbook strict y).
        { intros y (A & B & D & _). unfold zbook, book. splits; auto. intros Hs. contradiction. }
        assert (H2 : zbook False x1) by (eapply book_weak; [exact H1|lia]).
        destruct (zi_open io) as [[chunks fin]|er| |]; [|apply zend_err; exact H1|intros H; contradiction|intros _ H; contradiction].
        cbn [k_getw audited]. destruct (k_getw SK _ _) as [t gr].
        match goal with |- context [zx_sink NS C fuel0 RV ?x2 ?y] => assert (Hg : zbook False (zx_sink NS C fuel0 RV x2 y)) end.
        { unfold zbook. cbn [x_sink zx_sink zx_ck snd x_sv]. rewrite written_app. cbn. rewrite Z.add_0_r. exact H2. }
        destruct gr as [w'|er| |]; [|apply zend_err; apply HF; exact Hg|intros H; contradiction|intros _ H; contradiction].
        match goal with |- context [zip_io_copy _ _ _ _ w' chunks fin ?x2] => pose proof (z_iocopy w' fin chunks x2 Hg) as Hd;
          destruct (zip_io_copy NS C fuel0 RV w' chunks fin x2) as [x3 r3] end.
        cbn [fst snd] in *. apply zend_ws. intros _ _. destruct r3; auto.
    - intros _ _. exact H1.
  Qed.

  Lemma z_loop io fuel total : forall files i done x, (strict -> forall j zf, nth_error files j = Some zf -> zplain (io (i + j)%nat) zf) -> zbook strict x ->
    zend (fst (zip_loop NS C fuel0 RV io fuel files i done total x)) (snd (zip_loop NS C fuel0 RV io fuel files i done total x)).
  Proof.
    induction files as [|zf rest IH]; intros i done x Hpl Hx; cbn [zip_loop]; [intros _ _; exact Hx|].
    destruct (x_stoperr _ _ _ _ x); [intros _ _; exact Hx|].
    assert (Hp0 : strict -> zplain (io i) zf). { intros Hs. rewrite <- (Nat.add_0_r i). apply (Hpl Hs 0%nat). reflexivity. }
    pose proof (z_entry (io i) fuel (Z.of_nat i) zf done total x Hp0 Hx) as H1.
    destruct (zip_entry NS C fuel0 RV _ _ _ _ _ _ x) as [x1 [u|er| |]]; cbn [fst snd] in *; try (apply zend_ws; exact H1).
    apply IH.
    - intros Hs j f Hj. replace (Datatypes.S i + j)%nat with (i + Datatypes.S j)%nat by lia. apply (Hpl Hs). exact Hj.
    - exact (H1 ltac:(discriminate) ltac:(discriminate)).
  Qed.
End Zip.

Lemma zip_book SK C fuel0 (SV : saver (zck C fuel0) unit) (strict : Prop) files io fuel c s v out :
  (strict -> forall i zf, nth_error files i = Some zf -> zplain C (io i) zf) ->
  out = zip_resume (audited SK) C fuel0 (recorded SV) files io fuel c (s, []) (v, []) ->
  zo_res _ _ _ _ out <> Panic -> zo_res _ _ _ _ out <> Hang ->
  let t := snd (zo_sv _ _ _ _ out) in let w := written (snd (zo_sink _ _ _ _ out)) in
  book (answers SV) False t w /\ (forall l, zo_res _ _ _ _ out = Ok l -> book (answers SV) strict t w).
Proof.
  intros Hpl Hout Hp Hh. cbv zeta.
  unfold zip_resume in Hout. cbv zeta in Hout.
  match type of Hout with context [ec_index ?q <? 0] => set (ck := q) in Hout end.
  match type of Hout with out = match ?p with _ => _ end => destruct p as [s1 perr] eqn:Hpr end.
  assert (H1 : written (snd s1) = 0).
  { destruct c as [c|]; [injection Hpr as <- _; reflexivity|].
    assert (G : forall files s0, written (snd s0) = 0 -> written (snd (fst (zip_preallocate (audited SK) files s0))) = 0).
    { clear. induction files as [|f fs IH]; intros s0 H0; cbn [zip_preallocate]; [exact H0|].
      destruct (en_kind (zip_entry_of f)); try (apply IH; exact H0).
      cbn [k_prealloc audited]. destruct (k_prealloc SK (fst s0) _) as [t r].
      assert (H2 : written (snd s0 ++ [APreallocate (W := k_w SK) (zip_entry_of f)]) = 0) by (rewrite written_app; cbn; lia).
      destruct r as [e|]; [exact H2|]. apply IH. exact H2. }
    specialize (G files (s, []) eq_refl). rewrite Hpr in G. exact G. }
  assert (H0 : forall st, book (answers SV) st [] (written (snd s1))).
  { intros st. rewrite H1. unfold book. cbn. splits; auto; try lia. intros p q E. destruct p; [cbn; lia|discriminate]. }
  destruct perr as [e|]; [subst out; split; [apply H0|discriminate]|].
  destruct (ec_index ck <? 0) eqn:Ei; [subst out; contradiction|].
  match type of Hout with context [zip_loop ?a ?b ?c0 ?d ?e ?f ?g ?h ?i ?j ?x] =>
    pose proof (z_loop SK C fuel0 SV strict e f j g h i x) as Hl; destruct (zip_loop a b c0 d e f g h i j x) as [x' r] end.
  cbn [fst snd] in Hl. subst out. cbn [zo_res zo_sv zo_sink] in *.
  assert (Hr : r <> Panic /\ r <> Hang) by (split; intros ->; contradiction).
  specialize (Hl) as Hl. unfold zend in Hl. unfold zbook in Hl at 1. cbn [x_sv x_sink snd] in Hl.
  assert (Hl' : match r with Ok _ => zbook SK C fuel0 SV strict x' | _ => zbook SK C fuel0 SV False x' end).
  { apply Hl; [|apply H0|apply Hr|apply Hr]. intros Hs j zf Hj. apply (Hpl Hs). rewrite <- Hj.
    clear. generalize (Z.to_nat (ec_index ck)). intros n. revert files. induction n as [|n IH]; intros [|f fs]; cbn; auto. destruct j; reflexivity. }
  split.
  - destruct r; try exact Hl'; eapply book_weak; try exact Hl'; lia.
  - intros l El. destruct r; try discriminate. exact Hl'.
Qed.

(** C70. Zip: at any time of a run that returns, Save was called at most as often as ShouldSave
    had said yes; a consumer that never says yes never gets a checkpoint. *)
Theorem C70_zip_saves_on_demand SK C fuel0 (SV : saver (zck C fuel0) unit) files io fuel c s v out :
  out = zip_resume (audited SK) C fuel0 (recorded SV) files io fuel c (s, []) (v, []) ->
  zo_res _ _ _ _ out <> Panic -> zo_res _ _ _ _ out <> Hang ->
  let t := snd (zo_sv _ _ _ _ out) in
  asked_for t /\ ((forall v n, snd (sv_should SV v n) = false) -> ~ In SSave t).
Proof.
  intros Hout Hp Hh. destruct (zip_book SK C fuel0 SV False files io fuel c s v out ltac:(contradiction) Hout Hp Hh) as [(A & B & _) _].
  cbv zeta. split; [exact A|]. intros Hno. eapply never_saves; eauto.
Qed.
(** C71. Zip: ShouldSave is told of at most 32 KiB at a time, and altogether of no more bytes than were
    handed to the sink. *)
Theorem C71_zip_reported_at_most SK C fuel0 (SV : saver (zck C fuel0) unit) files io fuel c s v out :
  out = zip_resume (audited SK) C fuel0 (recorded SV) files io fuel c (s, []) (v, []) ->
  zo_res _ _ _ _ out <> Panic -> zo_res _ _ _ _ out <> Hang ->
  let t := snd (zo_sv _ _ _ _ out) in
  (forall n b, In (SShould n b) t -> 0 <= n <= 32 * 1024) /\ reported t <= written (snd (zo_sink _ _ _ _ out)).
Proof.
  intros Hout Hp Hh. destruct (zip_book SK C fuel0 SV False files io fuel c s v out ltac:(contradiction) Hout Hp Hh) as [(A & B & D & _) _].
  cbv zeta. split; [|exact D]. intros n b Hi. rewrite Forall_forall in B. apply (B _ Hi).
Qed.
(** It is told of all of them if every entry is stored or deflated and nothing returns io.EOF together with data. *)
Theorem C71_zip_all_reported_partial SK C fuel0 (SV : saver (zck C fuel0) unit) files io fuel c s v out l :
  cd_eager C = false -> Forall (fun zf => zf_method zf = zip_store \/ zf_method zf = zip_deflate) files ->
  (forall i off n, plain_reader (zi_section (io i) off n)) ->
  out = zip_resume (audited SK) C fuel0 (recorded SV) files io fuel c (s, []) (v, []) ->
  zo_res _ _ _ _ out = Ok l -> reported (snd (zo_sv _ _ _ _ out)) = written (snd (zo_sink _ _ _ _ out)).
Proof.
  intros H1 H2 H3 Hout Hr.
  destruct (zip_book SK C fuel0 SV True files io fuel c s v out) as [_ H]; [|exact Hout|congruence|congruence|].
  - intros _ i zf Hi. split; [exact H1|]. split; [intros; apply H3|]. rewrite Forall_forall in H2. apply H2. eapply nth_error_In. exact Hi.
  - destruct (H _ Hr) as (_ & _ & _ & D). apply D. exact Logic.I.
Qed.

Section Tar.
  Context (SK : sink) (F : tfmt) (k : stk) (SV : saver (s_ck (stk_source k)) tstate) (strict : Prop).
  Hypothesis Heager : strict -> tf_eager F = false.
  Notation S := (stk_source k).
  Notation NS := (audited SK).
  Notation RV := (recorded SV).
  Notation tx := (tx NS S RV).
  Notation sevs x := (snd (t_sv NS S RV x)).
  Notation wr x := (written (snd (t_sink NS S RV x))).
  Definition tbook (st : Prop) (x : tx) : Prop := book (answers SV) st (sevs x) (wr x).
  Definition tinv (src : s_st S) (x : tx) : Prop :=
    bl_ok (stk_budget k) src /\ (strict -> lz k src) /\ tbook strict x /\ (saves (sevs x) + bl (stk_budget k) src <= yeses (sevs x))%nat.
  Definition tend (src : s_st S) (x : tx) (r : res unit) : Prop :=
    r <> Panic -> r <> Hang -> match r with Ok _ => tinv src x | _ => tbook False x end.
  Lemma tbook_weak x : tbook strict x -> tbook False x.
  Proof using. intros H. eapply book_weak; [exact H|]. apply Z.le_refl. Qed.
  Lemma tend_err src x e : tbook strict x -> tend src x (Err e).
  Proof using. intros H _ _. apply tbook_weak. exact H. Qed.

  Lemma t_onsave_not_eof prog s (c : sckpt (s_ck S)) (x : tx) : snd (tar_on_save NS S RV prog s c x) <> CErr EEof.
  Proof using. unfold tar_on_save. cbv zeta. destruct (sv_save RV _ _) as [v' [[|]|e]]; try discriminate. intros [= H]; exact (with_stack_eof _ H). Qed.
  Lemma t_onsave_calls prog s : forall evs (x x' : tx), calls (tar_on_save NS S RV prog s) x evs x' ->
    sevs x' = sevs x ++ repeat SSave (length evs) /\ wr x' = wr x.
  Proof using.
    induction evs as [|[c r] evs IH]; cbn [calls length]; intros x x' H; [subst x'; rewrite app_nil_r; auto|].
    destruct H as (x1 & H1 & H2). apply IH in H2. destruct H2 as [M2 M3].
    unfold tar_on_save in H1. cbv zeta in H1. cbn [sv_save recorded] in H1. destruct (sv_save SV _ _) as [v' r'].
    assert (E : sevs x1 = sevs x ++ [SSave] /\ wr x1 = wr x). { destruct r' as [[|]|e]; injection H1 as <- _; cbn [t_sv t_sink snd]; auto. }
    destruct E as [E1 E2]. split; [|congruence]. rewrite M2, E1, <- app_assoc. reflexivity.
  Qed.

  Lemma t_copier w fuel X X' r : tinv (fst (fst X)) (snd X) -> copier_do (tar_cenv NS F S RV w) fuel X = (X', r) -> tend (fst (fst X')) (snd X') r.
  Proof using Heager.
    intros Hx Hc. unfold copier_do in Hc.
    pose proof (copy_loop_step (tar_cenv NS F S RV w) (fun X => tinv (fst (fst X)) (snd X))
      (fun X r => match r with Ok _ => tinv (fst (fst X)) (snd X) | _ => tbook False (snd X) end)) as L.
    match type of L with ?A -> _ => assert (HA : A) end.
    { clear Hx Hc. intros [[src s] x] pc (Hok & Hlz & Hb & Hn). unfold copy_step. cbn [ce_read tar_cenv fst snd] in *. unfold sr_read.
      assert (Hskip : forall w0 (d : bytes) t n, w0 = wr x -> d = [] -> written (snd (t_sink NS S RV x) ++ [AWrite w d]) = w0 /\ t = t :> nat /\ n = n :> nat).
      { intros w0 d t n -> ->. rewrite written_app. cbn. splits; auto. lia. }
      destruct (Nat.min copy_buf (sr_nb s)) as [|n'] eqn:En.
      { cbn [ce_write tar_cenv fst snd k_write audited]. destruct (k_write SK _ w []) as [t [[n adv] we]].
        assert (Hw : forall y, sevs y = sevs x -> wr y = wr x -> tbook strict y) by (intros y E1 E2; unfold tbook; rewrite E1, E2; exact Hb).
        assert (Hz : written (snd (t_sink NS S RV x) ++ [AWrite w []]) = wr x) by (rewrite written_app; cbn; lia).
        destruct we as [e|]; [intros _ _; apply tbook_weak; apply Hw; [reflexivity|exact Hz]|].
        intros _ _. destruct (_ >? _); cbn [ce_emit tar_cenv fst snd]; (split; [exact Hok|]; split; [exact Hlz|]; split; [apply Hw; [reflexivity|exact Hz]|exact Hn]). }
      destruct (s_read S _ src x (Datatypes.S n')) as [[src1 x1] rr] eqn:Er. destruct rr as [d re| |]; [|cbn; congruence|cbn; congruence].
      destruct (bl_read (stk_budget k) _ _ _ _ _ _ _ _ _ Hok Er) as (evs & C1 & C2 & C3 & _).
      pose proof (stk_read_len k _ _ _ _ _ _ _ _ _ Er) as Hlen.
      assert (Hlz1 : strict -> lz k src1 /\ (re = Some EEof -> d = [])).
      { intros Hs. destruct (lz_read k _ _ _ _ _ _ _ _ (t_onsave_not_eof _ s) (Hlz Hs) Er) as [L1 L2]. split; [exact L1|].
        intros ->. apply L2. reflexivity. }
      apply t_onsave_calls in C1. destruct C1 as (M2 & M3).
      assert (Hb1 : tbook strict x1). { unfold tbook. rewrite M2, M3. apply book_saves; [exact Hb|lia]. }
      assert (Hn1 : (saves (sevs x1) + bl (stk_budget k) src1 <= yeses (sevs x1))%nat).
      { rewrite M2, saves_app, yeses_app, saves_repeat, yeses_repeat. lia. }
      set (left := (sr_nb s - length d)%nat).
      set (re' := match re with Some EEof => if (left =? 0)%nat then Some EEof else Some EUnexpectedEof | Some e => Some e | None => if tf_eager F && (left =? 0)%nat then Some EEof else None end).
      assert (Hre : strict -> re' = Some EEof -> d = []).
      { intros Hs. unfold re'. destruct re as [e|]; [|rewrite (Heager Hs); discriminate].
        intros E. apply Hlz1; [exact Hs|]. destruct e; try discriminate. reflexivity. }
      clearbody re'. cbn [ce_write tar_cenv fst snd k_write audited]. destruct (k_write SK _ w d) as [t [[n adv] we]].
      assert (Hz : 0 <= zlen d) by (unfold zlen; lia).
      match goal with |- context [tx_ck NS S RV ?y ?c] => set (x2 := tx_ck NS S RV y c) end.
      assert (S2 : sevs x2 = sevs x1) by reflexivity.
      assert (W2 : wr x2 = wr x1 + zlen d). { cbn [x2 t_sink tx_ck tx_sink snd]. rewrite written_app. cbn. lia. }
      clearbody x2. destruct we as [e|].
      { intros _ _. cbn [snd]. unfold tbook. rewrite S2, W2. eapply book_weak; [exact Hb1|lia]. }
      match goal with |- context [if ?b then ce_emit ?E (?a, ?q, ?y) else _] => assert (Hx3 : exists x3, (if b then ce_emit E (a, q, y) else (a, q, y)) = (a, q, x3) /\ sevs x3 = sevs x2 /\ wr x3 = wr x2);
        [destruct b; eexists; cbn [ce_emit tar_cenv fst snd]; splits; reflexivity|] end.
      destruct Hx3 as (x3 & -> & S3 & W3).
      destruct re' as [e|].
      { destruct e; cbn [snd fst]; intros _ _; try (unfold tbook; rewrite S3, W3, S2, W2; eapply book_weak; [exact Hb1|lia]).
        destruct Hb1 as (B1 & B2 & B3 & B4). split; [exact C3|]. split; [intros Hs; apply Hlz1; exact Hs|]. rewrite S3, S2.
        split; [|exact Hn1]. unfold tbook. rewrite S3, W3, S2, W2. unfold book. split; [exact B1|]. split; [exact B2|]. split; [lia|].
        intros Hs. rewrite (Hre Hs eq_refl). rewrite (B4 Hs). unfold zlen. cbn. lia. }
      cbn [ce_should tar_cenv fst snd sv_should recorded].
      match goal with |- context [sv_should SV ?v (zlen d)] => assert (Ha : answers SV (zlen d) (snd (sv_should SV v (zlen d)))) by (exists v; reflexivity);
        destruct (sv_should SV v (zlen d)) as [v' b] end. cbn [snd] in Ha.
      assert (Hlz2 : strict -> lz k src1) by (intros Hs; apply Hlz1; exact Hs).
      assert (Hb4 : tbook strict (tx_sv NS S RV x3 (v', sevs x3 ++ [SShould (zlen d) b]))).
      { unfold tbook. cbn [t_sv t_sink tx_sv snd]. rewrite S3, W3, S2, W2. apply book_should; [|exact Ha|exact Hb1]. unfold zlen in *. pose proof copy_buf_32k. lia. }
      assert (Hn4 : (saves (sevs x3 ++ [SShould (zlen d) b]) + bl (stk_budget k) src1 + (if b then 1 else 0) <= yeses (sevs x3 ++ [SShould (zlen d) b]))%nat).
      { rewrite S3, S2, saves_app, yeses_app. destruct b; unfold saves at 2, yeses at 2; cbn [filter length]; lia. }
      destruct b; cbn [ce_want tar_cenv fst snd].
      - destruct (bl_want (stk_budget k) src1 C3) as [W4 W5]. split; [exact W4|]. split; [intros Hs; apply lz_want; auto|]. split; [exact Hb4|].
        cbn [t_sv tx_sv snd] in *. lia.
      - split; [exact C3|]. split; [exact Hlz2|]. split; [exact Hb4|]. cbn [t_sv tx_sv snd] in *. lia. }
    specialize (L HA). clear HA. specialize (L (fun y Hy => Hy) fuel (ce_setstop (tar_cenv NS F S RV w) false X) 0).
    rewrite Hc in L. destruct X as [[src s] x], X' as [[src' s'] x']. unfold tend. cbn [fst snd] in *. apply L. exact Hx.
  Qed.

  Lemma tbook_eq st x y : tbook st x -> sevs y = sevs x -> wr y = wr x -> tbook st y.
  Proof using. intros D E1 E2. unfold tbook in *. rewrite E1, E2. exact D. Qed.
  Lemma tinv_sink src x y : tinv src x -> sevs y = sevs x -> wr y = wr x -> tinv src y.
  Proof using. intros (A & B & D & E) E1 E2. unfold tinv, tbook in *. rewrite E1, E2. auto. Qed.

  Lemma t_extract fuel src s e x src' s' x' r : tinv src x ->
    tar_extract NS F S RV fuel src s e x = (src', s', x', r) -> tend src' x' r.
  Proof using Heager.
    intros Hx. unfold tar_extract. destruct (en_kind e).
    - cbn [k_mkdir audited]. destruct (k_mkdir SK _ e) as [t er].
      assert (Hw : written (snd (t_sink NS S RV x) ++ [AMkdir (W := k_w SK) e]) = wr x) by (rewrite written_app; cbn; lia).
      destruct er; intros [= <- <- <- <-].
      + apply tend_err. exact (proj1 (proj2 (proj2 (tinv_sink src x (tx_sink NS S RV x (t, snd (t_sink NS S RV x) ++ [AMkdir e])) Hx eq_refl Hw)))).
      + intros _ _. eapply tinv_sink; [exact Hx|reflexivity|exact Hw].
    - cbn [k_symlink audited]. destruct (k_symlink SK _ e _) as [t er].
      assert (Hw : written (snd (t_sink NS S RV x) ++ [ASymlink (W := k_w SK) e (en_link e)]) = wr x) by (rewrite written_app; cbn; lia).
      destruct er; intros [= <- <- <- <-].
      + apply tend_err. exact (proj1 (proj2 (proj2 (tinv_sink src x (tx_sink NS S RV x (t, snd (t_sink NS S RV x) ++ [ASymlink e (en_link e)])) Hx eq_refl Hw)))).
      + intros _ _. eapply tinv_sink; [exact Hx|reflexivity|exact Hw].
    - cbn [k_getw audited]. destruct (k_getw SK _ e) as [t gr].
      match goal with |- context [AGetWriter e ?g] => set (got := g) end.
      assert (Hw : written (snd (t_sink NS S RV x) ++ [AGetWriter (W := k_w SK) e got]) = wr x) by (rewrite written_app; cbn; lia).
      pose proof (tinv_sink src x (tx_sink NS S RV x (t, snd (t_sink NS S RV x) ++ [AGetWriter e got])) Hx eq_refl Hw) as Hg.
      destruct gr as [w|er| |].
      2: intros [= <- <- <- <-]; apply tend_err; apply Hg.
      2: intros [= <- <- <- <-] H; contradiction.
      2: intros [= <- <- <- <-] _ H; contradiction.
      match goal with |- context [copier_do ?E fuel ?X] => pose proof (fun X' r => t_copier w fuel X X' r Hg) as Hd; destruct (copier_do E fuel X) as [[[src2 s2] x2] r3] end.
      specialize (Hd _ _ eq_refl). cbn [fst snd] in Hd.
      assert (Hcl : forall y, sevs y = sevs x2 -> t_sink NS S RV y = t_sink NS S RV x2 ->
        sevs (tx_sink NS S RV y (fst (k_closew NS (t_sink NS S RV y) w))) = sevs x2 /\ wr (tx_sink NS S RV y (fst (k_closew NS (t_sink NS S RV y) w))) = wr x2).
      { intros y E1 E2. cbn [t_sv t_sink tx_sink]. split; [exact E1|]. rewrite E2. cbn [k_closew audited]. destruct (k_closew SK _ w). cbn [fst snd]. rewrite written_app. cbn. lia. }
      destruct r3 as [u|er| |]; intros [= <- <- <- <-]; [| |intros H; contradiction|intros _ H; contradiction].
      + intros _ _. destruct (Hcl (tar_reset NS S RV (tx_prog NS S RV (tx_state NS S RV x2 (MkTs (option_map (fun l => match ec_entry (t_ck NS S RV x2) with Some e' => l ++ [e'] | None => l end) (ts_result (t_state NS S RV x2))) (ts_tar (t_state NS S RV x2)))) (s_progress S src2))) eq_refl eq_refl) as [E1 E2].
        exact (tinv_sink _ _ _ (Hd ltac:(discriminate) ltac:(discriminate)) E1 E2).
      + intros _ _. specialize (Hd ltac:(discriminate) ltac:(discriminate)). destruct (Hcl x2 eq_refl eq_refl) as [E1 E2].
        eapply tbook_eq; [exact Hd|exact E1|exact E2].
    - intros [= <- <- <- <-]. intros _ _. exact Hx.
  Qed.

  Lemma rest_inv {K} (cb : callback (s_ck S) K) src y n src' y' r x : tinv src x -> (forall c z, snd (cb c z) <> CErr EEof) ->
    s_read S cb src y n = (src', y', r) -> r <> RPanic -> r <> RHang -> tinv src' x.
  Proof using.
    intros (A & B & D & E) Hcb Er Hp Hh. destruct r as [d e| |]; try contradiction.
    destruct (bl_read (stk_budget k) _ _ _ _ _ _ _ _ _ A Er) as (evs & _ & C2 & C3 & _).
    split; [exact C3|]. split; [intros Hs; apply (lz_read k _ _ _ _ _ _ _ _ Hcb (B Hs) Er)|]. split; [exact D|]. clear Heager. lia.
  Qed.
  Lemma drop_fine {CK} : forall (c : sckpt CK) y, snd (drop_cb c y) <> CErr EEof.
  Proof using. discriminate. Qed.
  Lemma read_full_inv x : forall fuel src n src' u r, tinv src x ->
    read_full S drop_cb fuel src tt n = (src', u, r) -> r <> Panic -> r <> Hang -> tinv src' x.
  Proof using.
    induction fuel as [|f IH]; intros src n src' u r Hx H Hp Hh; cbn [read_full] in H; destruct n as [|n]; try (injection H as <- _ _; exact Hx).
    destruct (s_read S drop_cb src tt (Datatypes.S n)) as [[src1 u1] rr] eqn:Er.
    destruct rr as [d e| |]; [|injection H as _ _ <-; contradiction|injection H as _ _ <-; contradiction].
    pose proof (rest_inv drop_cb src tt _ _ _ _ x Hx drop_fine Er ltac:(discriminate) ltac:(discriminate)) as H1.
    destruct (_ <=? _)%nat; [injection H as <- _ _; exact H1|]. destruct e; [injection H as <- _ _; exact H1|]. destruct u1.
    destruct (read_full S drop_cb f src1 tt _) as [[src2 u2] r2] eqn:Ef.
    assert (H2 : r2 <> Panic -> r2 <> Hang -> tinv src2 x) by (intros; eapply IH; eauto).
    destruct r2 as [[d2 e2]|er| |]; injection H as <- _ <-; apply H2; try discriminate; auto.
  Qed.
  Lemma tar_parse_inv x : forall fuel src off st src' off' r, tinv src x ->
    tar_parse F S fuel src off st = (src', off', r) -> r <> Panic -> r <> Hang -> tinv src' x.
  Proof using.
    induction fuel as [|f IH]; intros src off st src' off' r Hx H Hp Hh; cbn [tar_parse] in H; [injection H as _ _ <-; contradiction|].
    destruct (tf_step F st) as [n kk|h|e]; [|injection H as <- _ _; exact Hx|injection H as <- _ _; exact Hx].
    destruct (read_full S drop_cb (Datatypes.S f) src tt n) as [[src1 u1] r1] eqn:Ef.
    assert (H2 : r1 <> Panic -> r1 <> Hang -> tinv src1 x) by (intros; eapply read_full_inv; eauto).
    destruct r1 as [[d [e|]]|er| |]; [destruct e| | |injection H as _ _ <-; contradiction|injection H as _ _ <-; contradiction];
      try (injection H as <- _ _; apply H2; discriminate); (eapply IH; [|exact H|exact Hp|exact Hh]; apply H2; discriminate).
  Qed.
  Lemma sr_next_inv x fuel src s src' s' r : tinv src x -> sr_next F S fuel src s = (src', s', r) -> r <> Panic -> r <> Hang -> tinv src' x.
  Proof using.
    intros Hx H Hp Hh. unfold sr_next in H. destruct (read_full S drop_cb fuel src tt _) as [[src1 u1] r1] eqn:Ef.
    assert (H2 : r1 <> Panic -> r1 <> Hang -> tinv src1 x) by (intros; eapply read_full_inv; eauto).
    destruct r1 as [[d [e|]]|er| |]; [injection H as <- _ _; apply H2; discriminate| |injection H as <- _ _; apply H2; discriminate|injection H as _ _ <-; contradiction|injection H as _ _ <-; contradiction].
    destruct (tar_parse F S fuel src1 _ _) as [[src2 off] r2] eqn:Ep.
    assert (H3 : r2 <> Panic -> r2 <> Hang -> tinv src2 x) by (intros; eapply tar_parse_inv; [apply H2; discriminate|exact Ep|auto|auto]).
    destruct r2; injection H as <- _ <-; apply H3; auto; discriminate.
  Qed.

  Lemma t_iter fuel src s i x src' s' x' r : tinv src x -> tar_iter NS F S RV fuel src s i x = (src', s', x', r) -> tend src' x' r.
  Proof using Heager.
    intros Hx. unfold tar_iter. cbv zeta. cbn [ec_entry]. destruct (ec_entry _) as [e|]; [apply t_extract; exact Hx|].
    destruct (sr_next _ _ _ _ _) as [[src1 s1] r1] eqn:En.
    assert (H1 : r1 <> Panic -> r1 <> Hang -> tinv src1 x) by (intros; eapply sr_next_inv; eauto).
    destruct r1 as [h|er| |].
    - specialize (H1 ltac:(discriminate) ltac:(discriminate)). destruct (tar_entry_of h) as [e|]; [apply t_extract; exact H1|]. intros [= <- <- <- <-]. intros _ _. exact H1.
    - specialize (H1 ltac:(discriminate) ltac:(discriminate)). destruct er; intros [= <- <- <- <-]; first [apply tend_err; apply H1|intros _ _; exact H1].
    - intros [= <- <- <- <-]. intros H; contradiction.
    - intros [= <- <- <- <-]. intros _ H; contradiction.
  Qed.
  Lemma t_loop fuel : forall lf src s i x x' r, tinv src x -> tar_loop NS F S RV fuel lf src s i x = (x', r) ->
    r <> Panic -> r <> Hang -> match r with Ok _ => tbook strict x' | _ => tbook False x' end.
  Proof using Heager.
    induction lf as [|lf IH]; intros src s i x x' r Hx; cbn [tar_loop].
    - destruct (t_stoperr NS S RV x); intros [= <- <-] Hp Hh; [apply Hx|contradiction].
    - destruct (t_stoperr NS S RV x); [intros [= <- <-] Hp Hh; apply Hx|].
      destruct (tar_iter NS F S RV fuel src s i x) as [[[src1 s1] x1] r1] eqn:Ei. pose proof (t_iter _ _ _ _ _ _ _ _ _ Hx Ei) as H1. unfold tend in H1.
      destruct r1 as [u|er| |]; [|intros [= <- <-] Hp Hh..]; try contradiction.
      + apply IH. apply H1; discriminate.
      + apply H1; discriminate.
  Qed.
End Tar.

Lemma tar_book SK F k (SV : saver (s_ck (stk_source k)) tstate) (strict : Prop) rs start size fuel c s v out :
  (strict -> tf_eager F = false /\ plain_eof k rs) ->
  out = tar_resume (audited SK) F (stk_source k) (recorded SV) (stk_new k rs start size) fuel c (s, []) (v, []) ->
  to_res _ _ _ out <> Panic -> to_res _ _ _ out <> Hang ->
  let t := snd (to_sv _ _ _ out) in let w := written (snd (to_sink _ _ _ out)) in
  book (answers SV) False t w /\ (forall l, to_res _ _ _ out = Ok l -> book (answers SV) strict t w).
Proof.
  intros Hpl Hout Hp Hh. cbv zeta.
  assert (H0 : forall st, book (answers SV) st [] 0).
  { intros st. unfold book. cbn. splits; auto; try lia. intros p q E. destruct p; [cbn; lia|discriminate]. }
  destruct (stk_new_budget rs start size k) as [N1 N2]. pose proof (fun Hs => lz_new k rs start size (proj2 (Hpl Hs))) as N3.
  assert (Hrun : forall src s0 ck ts keep, bl_ok (stk_budget k) src -> (bl (stk_budget k) src <= 0)%nat -> (strict -> lz k src) ->
    out = tar_run (audited SK) F (stk_source k) (recorded SV) fuel src s0 ck ts keep (s, []) (v, []) ->
    book (answers SV) False (snd (to_sv _ _ _ out)) (written (snd (to_sink _ _ _ out))) /\
    (forall l, to_res _ _ _ out = Ok l -> book (answers SV) strict (snd (to_sv _ _ _ out)) (written (snd (to_sink _ _ _ out))))).
  { clear Hout. intros src s0 ck ts keep B1 B2 B3 Hout. unfold tar_run in Hout. destruct (tar_loop _ _ _ _ _ _ _ _ _ _) as [x r] eqn:El.
    subst out. cbn [to_sv to_sink to_res] in *.
    assert (Hr : r <> Panic /\ r <> Hang) by (split; intros ->; contradiction).
    destruct (bl_setssc (stk_budget k) src B1) as [S1 S2].
    eapply (t_loop SK F k SV strict) in El; [| | |exact (proj1 Hr)|exact (proj2 Hr)].
    - split.
      + destruct r; try exact El. eapply book_weak; [exact El|apply Z.le_refl].
      + intros l Hl. destruct r; try discriminate. exact El.
    - intros Hs. apply Hpl. exact Hs.
    - split; [exact S1|]. split; [intros Hs; apply lz_setssc; auto|]. split; [apply H0|]. cbn [t_sv snd]. unfold saves, yeses. cbn [filter length]. lia. }
  assert (Hfail : forall r, out = MkTout (audited SK) (stk_source k) (recorded SV) (s, []) (v, []) (to_ck _ _ _ out) [] [] r (to_obj _ _ _ out) ->
     book (answers SV) False (snd (to_sv _ _ _ out)) (written (snd (to_sink _ _ _ out))) /\
    (forall l, to_res _ _ _ out = Ok l -> book (answers SV) strict (snd (to_sv _ _ _ out)) (written (snd (to_sink _ _ _ out))))).
  { intros r ->. split; intros; apply H0. }
  unfold tar_resume in Hout. destruct (tar_point _ c) as [[[ck ts] s0]|].
  - cbv zeta in Hout. destruct (s_resume _ _ (ec_src ck)) as [src1 r1] eqn:Er.
    pose proof (fun Hs => lz_resume k _ (ec_src ck) (N3 Hs)) as N4. rewrite Er in N4. cbn [fst] in N4.
    destruct r1 as [o|e| |]; try (eapply Hfail; subst out; reflexivity).
    destruct (bl_resume (stk_budget k) _ _ _ _ N1 Er ltac:(discriminate) ltac:(discriminate)) as [R1 R2].
    destruct (if o <? sr_off s0 then _ else _) as [[src2 u] r2] eqn:Ed.
    assert (Hd : r2 <> Panic -> r2 <> Hang -> bl_ok (stk_budget k) src2 /\ (bl (stk_budget k) src2 <= bl (stk_budget k) src1)%nat /\ (strict -> lz k src2)).
    { intros Hp2 Hh2. destruct (o <? sr_off s0); [|injection Ed as <- _ _; splits; auto].
      destruct (left_discard _ (stk_budget k) _ _ _ _ _ _ _ _ _ R1 Ed Hp2 Hh2) as [D1 D2]. splits; auto.
      intros Hs. pose proof (lz_discard k _ drop_cb drop_fine fuel src1 tt (sr_off s0 - o) (N4 Hs)) as D3. rewrite Ed in D3. exact D3. }
    destruct r2 as [u2|e| |]; try (eapply Hfail; subst out; reflexivity).
    destruct (Hd ltac:(discriminate) ltac:(discriminate)) as (D1 & D2 & D3). eapply Hrun; [exact D1|lia|exact D3|exact Hout].
  - destruct (s_resume _ _ None) as [src1 r1] eqn:Er.
    pose proof (fun Hs => lz_resume k _ None (N3 Hs)) as N4. rewrite Er in N4. cbn [fst] in N4.
    destruct r1 as [o|e| |]; try (eapply Hfail; subst out; reflexivity).
    destruct (bl_resume (stk_budget k) _ _ _ _ N1 Er ltac:(discriminate) ltac:(discriminate)) as [R1 R2]. eapply Hrun; [exact R1|lia|exact N4|exact Hout].
Qed.

(** C70. Tar, over a source of any kind that has not been used before. *)
Theorem C70_tar_saves_on_demand SK F k (SV : saver (s_ck (stk_source k)) tstate) rs start size fuel c s v out :
  out = tar_resume (audited SK) F (stk_source k) (recorded SV) (stk_new k rs start size) fuel c (s, []) (v, []) ->
  to_res _ _ _ out <> Panic -> to_res _ _ _ out <> Hang ->
  let t := snd (to_sv _ _ _ out) in
  asked_for t /\ ((forall v n, snd (sv_should SV v n) = false) -> ~ In SSave t).
Proof.
  intros Hout Hp Hh. destruct (tar_book SK F k SV False rs start size fuel c s v out ltac:(contradiction) Hout Hp Hh) as [(A & B & _) _].
  cbv zeta. split; [exact A|]. intros Hno. eapply never_saves; eauto.
Qed.
Theorem C71_tar_reported_at_most SK F k (SV : saver (s_ck (stk_source k)) tstate) rs start size fuel c s v out :
  out = tar_resume (audited SK) F (stk_source k) (recorded SV) (stk_new k rs start size) fuel c (s, []) (v, []) ->
  to_res _ _ _ out <> Panic -> to_res _ _ _ out <> Hang ->
  let t := snd (to_sv _ _ _ out) in
  (forall n b, In (SShould n b) t -> 0 <= n <= 32 * 1024) /\ reported t <= written (snd (to_sink _ _ _ out)).
Proof.
  intros Hout Hp Hh. destruct (tar_book SK F k SV False rs start size fuel c s v out ltac:(contradiction) Hout Hp Hh) as [(A & B & D & _) _].
  cbv zeta. split; [|exact D]. intros n b Hi. rewrite Forall_forall in B. apply (B _ Hi).
Qed.
Theorem C71_tar_all_reported_partial SK F k (SV : saver (s_ck (stk_source k)) tstate) rs start size fuel c s v out l :
  tf_eager F = false -> plain_eof k rs ->
  out = tar_resume (audited SK) F (stk_source k) (recorded SV) (stk_new k rs start size) fuel c (s, []) (v, []) ->
  to_res _ _ _ out = Ok l -> reported (snd (to_sv _ _ _ out)) = written (snd (to_sink _ _ _ out)).
Proof.
  intros H1 H2 Hout Hr.
  destruct (tar_book SK F k SV True rs start size fuel c s v out) as [_ H]; [auto|exact Hout|congruence|congruence|].
  destruct (H _ Hr) as (_ & _ & _ & D). apply D. exact Logic.I.
Qed.

(** ** Not vacuous, and why "all bytes" needs the conditions *)
From Verif Require Import ExCodec ExSink ExZip ExTar TarSpec ZipSpec.
Definition s2_zip (C : codec) (files : list zfile) (io : nat -> zio) {V} (should : V -> Z -> V * bool) (v : V) :=
  zip_resume (audited map_sink) C exF (recorded (MkSaver V should (fun v _ => (v, inl false)))) files io 50 None (map_empty, []) (v, []).
Definition s2_tar {V} (should : V -> Z -> V * bool) (v : V) :=
  tar_resume (audited map_sink) et_fmt (stk_source et_k) (recorded (MkSaver V should (fun v _ => (v, inl false)))) (stk_new et_k et_rs 0 54) 300 None (map_empty, []) (v, []).
(** A consumer that says yes every time *)
Example C70_zip_example :
  snd (zo_sv _ _ _ _ (s2_zip exC (zfiles ex_ms) ex_io (fun u n => (u, true)) tt)) =
  [SShould 5 true; SShould 2 true; SShould 2 true; SSave; SShould 0 true; SShould 2 true; SSave; SShould 0 true].
Proof. vm_compute. reflexivity. Qed.
Example C70_tar_example :
  snd (to_sv _ _ _ (s2_tar (fun u n => (u, true)) tt)) =
  [SShould 2 true; SShould 2 true; SSave; SShould 0 true; SShould 2 true; SShould 2 true; SShould 2 true].
Proof. vm_compute. reflexivity. Qed.

(** Doubles its only byte, and says io.EOF together with that. *)
Definition s2_codec : codec :=
  MkCodec (option (option byte)) (Some None) (fun s => match s with Some None => Pull (fun b => Some (Some b)) | Some (Some b) => Emit b [b] None | None => Finish end)
    (fun _ => true) true false.
Definition s2_files := [MkZf (s2b "b") 1 2 0 0 8].
Definition s2_io : nat -> zio := fun _ => MkZio (Ok 0) (fun _ _ => MkRs (s2b "a") 0 [] []) (Ok ([], None)).
(** C71, as extractor.go:108-110 puts it: "copiedBytes is the amount of bytes extracted since the last
    time ShouldSave was called". This fails for entries that are neither stored nor deflated
    (of 12 bytes 11 are reported), and for decompressors that return io.EOF with the last data (of 2 bytes 0). *)
Theorem C71_all_reported_refuted :
  (exists l, zo_res _ _ _ _ (s2_zip exC (zfiles ex_ms) ex_io (fun u n => (u, false)) tt) = Ok l) /\
  reported (snd (zo_sv _ _ _ _ (s2_zip exC (zfiles ex_ms) ex_io (fun u n => (u, false)) tt))) = 11 /\
  written (snd (zo_sink _ _ _ _ (s2_zip exC (zfiles ex_ms) ex_io (fun u n => (u, false)) tt))) = 12 /\
  (exists l, zo_res _ _ _ _ (s2_zip s2_codec s2_files s2_io (fun u n => (u, false)) tt) = Ok l) /\
  reported (snd (zo_sv _ _ _ _ (s2_zip s2_codec s2_files s2_io (fun u n => (u, false)) tt))) = 0 /\
  written (snd (zo_sink _ _ _ _ (s2_zip s2_codec s2_files s2_io (fun u n => (u, false)) tt))) = 2.
Proof. splits; try (eexists; vm_compute; reflexivity); vm_compute; reflexivity. Qed.
(** The conditions of the theorems about all bytes are met by these: *)
Example C71_zip_example :
  cd_eager exC = false /\ Forall (fun zf => zf_method zf = zip_store \/ zf_method zf = zip_deflate) (firstn 3 (zfiles ex_ms)) /\
  (forall i off n, plain_reader (zi_section (ex_io i) off n)) /\
  (exists l, zo_res _ _ _ _ (s2_zip exC (firstn 3 (zfiles ex_ms)) ex_io (fun u n => (u, true)) tt) = Ok l) /\
  written (snd (zo_sink _ _ _ _ (s2_zip exC (firstn 3 (zfiles ex_ms)) ex_io (fun u n => (u, true)) tt))) = 11.
Proof.
  splits; try (eexists; vm_compute; reflexivity); try (vm_compute; reflexivity).
  - repeat (constructor; [cbn; auto|]). constructor.
  - intros i off n m H. exact H.
Qed.
Example C71_tar_example :
  tf_eager et_fmt = false /\ plain_eof et_k et_rs /\ (exists l, to_res _ _ _ (s2_tar (fun u n => (u, true)) tt) = Ok l) /\
  written (snd (to_sink _ _ _ (s2_tar (fun u n => (u, true)) tt))) = 10.
Proof. splits; try (eexists; vm_compute; reflexivity); vm_compute; reflexivity. Qed.
