(** Stop2_proofs.v -- what the answers of the save consumer do to an extraction. *)
From Verif Require Import Base Base_proofs Source Seek Decomp Drive Copier Sink Zip Tar StopSpec Stop_proofs.

(** ** The copier *)
Section Phases.
  Context {X : Type} (E : cenv X) (Clean Stop1 Stopped Fail1 Failed : X -> Prop).
  Hypothesis Hread : forall x n x' r, Clean x -> ce_read E x n = (x', r) ->
    Clean x' \/ (Stop1 x' /\ exists d e, r = RRet d e) \/ (Fail1 x' /\ exists d e, r = RRet d (Some e) /\ e <> EEof).
  Hypothesis Hwrite : forall x d, (Clean x -> Clean (fst (ce_write E x d))) /\ (Stop1 x -> Stopped (fst (ce_write E x d))) /\
    (Fail1 x -> Failed (fst (ce_write E x d))).
  Hypothesis Hshould : forall x n, (Clean x -> Clean (fst (ce_should E x n))) /\ (Stopped x -> Stopped (fst (ce_should E x n))).
  Hypothesis Hwant : forall x, (Clean x -> Clean (ce_want E x)) /\ (Stopped x -> Stopped (ce_want E x)).
  Hypothesis Hemit : forall x, (Clean x -> Clean (ce_emit E x)) /\ (Stopped x -> Stopped (ce_emit E x)) /\ (Failed x -> Failed (ce_emit E x)).
  Hypothesis Hstop : forall x, Stopped x -> ce_stopped E x = true.

  Definition finished (x : X) (r : res unit) : Prop :=
    Clean x \/ (Stopped x /\ (r = Ok tt \/ exists e, r = Err e)) \/ (Failed x /\ exists e, r = Err e).

  Lemma step_phases x pc x' r : Clean x -> copy_step E x pc = (x', r) ->
    match r with
    | inl _ => Clean x' \/ Stopped x'
    | inr r => finished x' r
    end.
  Proof.
    intros Hx. unfold copy_step. destruct (ce_read E x copy_buf) as [x1 rr] eqn:Er. pose proof (Hread x copy_buf x1 rr Hx Er) as H.
    destruct rr as [d re| |].
    2:{ intros [= <- <-]. destruct H as [H|[(_ & ? & ? & H)|(_ & ? & ? & H & _)]]; [left; exact H|discriminate..]. }
    2:{ intros [= <- <-]. destruct H as [H|[(_ & ? & ? & H)|(_ & ? & ? & H & _)]]; [left; exact H|discriminate..]. }
    destruct (Hwrite x1 d) as (W1 & W2 & W3). destruct (ce_write E x1 d) as [x2 [m we]]. cbn [fst] in *.
    assert (H2 : Clean x2 \/ Stopped x2 \/ (Failed x2 /\ exists e, re = Some e /\ e <> EEof)).
    { destruct H as [H|[(H & _)|(H & d' & e & He & Hn)]]; auto. injection He as _ ->. right. right. split; eauto. }
    destruct we as [we|].
    { intros [= <- <-]. unfold finished. destruct H2 as [H2|[H2|(H2 & _)]]; eauto 6. }
    set (x3 := if (_ >? _) then _ else _).
    assert (H3 : Clean x3 \/ Stopped x3 \/ (Failed x3 /\ exists e, re = Some e /\ e <> EEof)).
    { unfold x3. destruct (_ >? _); [|exact H2]. destruct (Hemit x2) as (A & B & C). tauto. }
    clearbody x3. clear H2 H.
    destruct re as [re|].
    - assert (G : forall rr, (re <> EEof -> rr = Err (with_stack re)) -> (re = EEof -> rr = Ok tt) -> finished x3 rr).
      { intros rr R1 R2. unfold finished. destruct H3 as [H3|[H3|(H3 & e & [= ->] & Hn)]]; [auto| |].
        - right. left. split; [exact H3|]. destruct (gerr_eqb re EEof) eqn:Q; destruct re; try discriminate; try (left; apply R2; reflexivity);
            right; eexists; apply R1; discriminate.
        - right. right. split; [exact H3|]. eexists. apply R1. exact Hn. }
      destruct re; intros [= <- <-]; apply G; auto; congruence.
    - assert (H4 : Clean x3 \/ Stopped x3) by (destruct H3 as [|[|(_ & ? & ? & _)]]; [tauto..|discriminate]).
      destruct (Hshould x3 (zlen d)) as [S1 S2]. destruct (ce_should E x3 (zlen d)) as [x4 b]. cbn [fst] in *.
      destruct (Hwant x4) as [V1 V2]. destruct b; intros [= <- <-]; tauto.
  Qed.
  Lemma loop_phases : forall fuel x pc x' r, Clean x \/ Stopped x -> copy_loop E fuel x pc = (x', r) -> finished x' r.
  Proof.
    assert (Hst : forall x x', Stopped x -> (x, Ok tt) = x' -> finished (fst x') (snd x')).
    { intros x ? Hx <-. right. left. cbn. auto. }
    induction fuel as [|f IH]; intros x pc x' r Hx; cbn [copy_loop]; destruct (ce_stopped E x) eqn:Es.
    - intros [= <- <-]. unfold finished. tauto.
    - intros [= <- <-]. destruct Hx as [Hx|Hx]; [left; exact Hx|]. rewrite (Hstop _ Hx) in Es. discriminate.
    - intros [= <- <-]. unfold finished. tauto.
    - assert (Hc : Clean x) by (destruct Hx as [Hx|Hx]; [exact Hx|rewrite (Hstop _ Hx) in Es; discriminate]).
      destruct (copy_step E x pc) as [x1 rr] eqn:Ec. pose proof (step_phases _ _ _ _ Hc Ec) as HS.
      destruct rr as [pc'|rr]; [intros HL; eapply IH; eauto|intros [= <- <-]; exact HS].
  Qed.
End Phases.

(** Errors: no savior.ErrStop *)
Section NoStop.
  Context {X : Type} (E : cenv X) (P : X -> Prop).
  Hypothesis Hread : forall x n x' r, P x -> ce_read E x n = (x', r) -> P x' /\ forall d, r <> RRet d (Some EStop).
  Hypothesis Hwrite : forall x d x' m e, P x -> ce_write E x d = (x', (m, e)) -> P x' /\ e <> Some EStop.
  Hypothesis Hshould : forall x n, P x -> P (fst (ce_should E x n)).
  Hypothesis Hwant : forall x, P x -> P (ce_want E x).
  Hypothesis Hemit : forall x, P x -> P (ce_emit E x).
  Lemma loop_no_stop : forall fuel x pc x' r, P x -> copy_loop E fuel x pc = (x', r) -> P x' /\ r <> Err EStop.
  Proof.
    induction fuel as [|f IH]; intros x pc x' r Hx; cbn [copy_loop]; destruct (ce_stopped E x) eqn:Es; try (intros [= <- <-]; split; [exact Hx|discriminate]).
    unfold copy_step. destruct (ce_read E x copy_buf) as [x1 rr] eqn:Er. destruct (Hread _ _ _ _ Hx Er) as [H1 H2].
    destruct rr as [d re| |]; try (intros [= <- <-]; split; [exact H1|discriminate]).
    destruct (ce_write E x1 d) as [x2 [m we]] eqn:Ew. destruct (Hwrite _ _ _ _ _ H1 Ew) as [H3 H4].
    destruct we as [we|]; [intros [= <- <-]; split; [exact H3|]; destruct we; cbn; congruence|].
    set (x3 := if (_ >? _) then _ else _). assert (H5 : P x3) by (unfold x3; destruct (_ >? _); auto). clearbody x3.
    set (pc2 := if (_ >? _) then _ else _). clearbody pc2.
    destruct re as [re|]; [destruct re; intros [= <- <-]; (split; [exact H5|]); try discriminate; exfalso; exact (H2 d eq_refl)|].
    pose proof (Hshould x3 (zlen d) H5) as H6. destruct (ce_should E x3 (zlen d)) as [x4 b]. cbn in H6.
    intros HL. refine (IH _ _ _ _ _ HL). destruct b; auto.
  Qed.
End NoStop.

(** ** What the consumer said *)
Lemma watched_should {CK DT} (SV : saver CK DT) s n : snd (fst (sv_should (watched SV) s n)) = snd s.
Proof. cbn. destruct (sv_should SV (fst s) n). reflexivity. Qed.
Section Answers.
  Context {CK DT : Type} (SK : sink) (fth : bool).
  Notation hist := (list (eckpt CK DT * (bool + gerr))).
  (** no stop; an error only if it may get lost *)
  Definition ans_ok (a : bool + gerr) : Prop := a = inl false \/ (fth = false /\ exists e, a = inr e).
  Definition h_clean (h : hist) (lg : list (eckpt CK DT * k_st SK)) : Prop := Forall (fun p => ans_ok (snd p)) h /\ map fst lg = map fst h.
  (** the last answer was stop (or an error), with the sink in state s *)
  Definition h_stop (h : hist) (lg : list (eckpt CK DT * k_st SK)) (s : k_st SK) : Prop :=
    exists h' lg' c, h = h' ++ [(c, inl true)] /\ lg = lg' ++ [(c, s)] /\ h_clean h' lg'.
  Definition h_fail (h : hist) (lg : list (eckpt CK DT * k_st SK)) : Prop :=
    exists h' lg' c s e, h = h' ++ [(c, inr e)] /\ lg = lg' ++ [(c, s)] /\ h_clean h' lg' /\ fth = true.

  Lemma h_cases h lg c s a : h_clean h lg ->
    match a with
    | inl true => h_stop (h ++ [(c, a)]) (lg ++ [(c, s)]) s
    | inl false => h_clean (h ++ [(c, a)]) (lg ++ [(c, s)])
    | inr e => (fth = true /\ h_fail (h ++ [(c, a)]) (lg ++ [(c, s)])) \/ h_clean (h ++ [(c, a)]) (lg ++ [(c, s)])
    end.
  Proof.
    intros H. assert (HC : ans_ok a -> h_clean (h ++ [(c, a)]) (lg ++ [(c, s)])).
    { intros Ha. destruct H as [H1 H2]. split; [apply Forall_app; auto|]. rewrite !map_app, H2. reflexivity. }
    destruct a as [[|]|e].
    - exists h, lg, c. auto.
    - apply HC. left. reflexivity.
    - assert (Hd : fth = true \/ fth = false) by (destruct fth; auto). destruct Hd as [Hd|Hd].
      + left. split; [exact Hd|]. exists h, lg, c, s, e. auto.
      + right. apply HC. right. eauto.
  Qed.
End Answers.

(** ** Zip *)
Section ZipStop.
  Context (SK : sink) (C : codec) (fuel0 : nat) (SV : saver (zck C fuel0) unit) (fth : bool).
  Notation V := (watched SV).
  Notation zx := (zx SK C fuel0 V).
  Notation x_sink := (x_sink SK C fuel0 V). Notation x_sv := (x_sv SK C fuel0 V). Notation x_log := (x_log SK C fuel0 V).
  Notation x_stop := (x_stop SK C fuel0 V). Notation x_stoperr := (x_stoperr SK C fuel0 V). Notation x_ck := (x_ck SK C fuel0 V).
  Notation clean := (h_clean SK fth). Notation hstop := (h_stop SK fth). Notation hfail := (h_fail SK fth).

  Definition zclean (x : zx) : Prop := clean (snd (x_sv x)) (x_log x) /\ x_stoperr x = false.
  Definition zstop (x : zx) (s : k_st SK) : Prop := hstop (snd (x_sv x)) (x_log x) s /\ x_stoperr x = true /\ x_stop x = true.
  Definition zfail (x : zx) : Prop := hfail (snd (x_sv x)) (x_log x).
  Definition zstopped (x : zx) : Prop := exists s w d, zstop x s /\ x_sink x = fst (k_write SK s w d).

  Lemma on_save_phases {CK} (inj : sckpt CK -> sckpt (zck C fuel0)) w done total sc x : zclean x ->
    let '(x', r) := zip_on_save SK C fuel0 V inj w done total sc x in
    match r with
    | COk => zclean x' \/ zstop x' (x_sink x')
    | CErr e => e <> EEof /\ (zclean x' \/ (fth = true /\ zfail x'))
    | CPanic => False
    end.
  Proof.
    intros [H1 H2]. unfold zip_on_save. destruct (k_sync SK _ w) as [s' [e|]].
    - split; [destruct e; discriminate|]. left. split; assumption.
    - cbv zeta. cbn [watched sv_save]. destruct x as [sk ck [v h] st se pr lg]. cbn in *.
      match goal with |- context[sv_save SV v ?c] => destruct (sv_save SV v c) as [v' a]; pose proof (h_cases SK fth h lg c s' a H1) as HC end.
      destruct a as [[|]|e]; cbn in *.
      + right. split; cbn; auto.
      + left. split; cbn; auto.
      + split; [destruct e; discriminate|]. destruct HC as [HC|HC]; [right; exact HC|left]. split; cbn; auto.
  Qed.

  Section Copy.
    Context (S : source) (f : bool) (HS : saves_once S f) (Hf : fth = true -> f = true).
    Context (inj : sckpt (s_ck S) -> sckpt (zck C fuel0)) (w : k_w SK) (done total : Z).
    Notation E := (zip_cenv SK C fuel0 V S inj w done total).
    Lemma zcopy_phases fuel src x x' r : zclean x -> copier_do E fuel (src, x) = (x', r) ->
      zclean (snd x') \/ (zstopped (snd x') /\ (r = Ok tt \/ exists e, r = Err e)) \/ (zfail (snd x') /\ exists e, r = Err e).
    Proof.
      intros Hx Hd.
      refine (loop_phases E (fun X => zclean (snd X)) (fun X => zstop (snd X) (x_sink (snd X))) (fun X => zstopped (snd X))
        (fun X => zfail (snd X)) (fun X => zfail (snd X)) _ _ _ _ _ _ fuel _ 0 x' r (or_introl _) Hd).
      - intros [sr y] n x1 r1 Hy. cbn [zip_cenv ce_read fst snd]. destruct (s_read S _ sr y n) as [[sr' y'] rr] eqn:Er. intros [= <- <-]. cbn [snd].
        destruct (HS _ _ _ _ _ _ _ _ Er) as [->|(c & -> & Hc)]; [left; exact Hy|].
        pose proof (on_save_phases inj w done total c y Hy) as HP. destruct (zip_on_save _ _ _ _ _ _ _ _ c y) as [y1 [|e|]]; cbn [fst snd] in *.
        + destruct Hc as (d & e' & ->). destruct HP as [HP|HP]; [left; exact HP|right; left; split; eauto].
        + destruct HP as [Hn [HP|[Ht HP]]]; [left; exact HP|]. right. right. split; [exact HP|].
          rewrite (Hf Ht) in Hc. destruct Hc as (d & ->). eauto.
        + destruct HP.
      - intros [sr y] d. cbn [zip_cenv ce_write fst snd]. destruct (k_write SK (x_sink y) w d) as [s' [[m adv] e]] eqn:Ew. cbn [fst snd].
        split; [|split].
        + intros [A B]. split; auto.
        + intros (A & B & D). exists (x_sink y), w, d. split; [split; auto|]. change (s' = fst (k_write SK (x_sink y) w d)). rewrite Ew. reflexivity.
        + intros A. exact A.
      - intros [sr [sk ck [v h] st se pr lg]] n.
        assert (HV : exists v' b, ce_should E (sr, MkZx SK C fuel0 V sk ck (v, h) st se pr lg) n = ((sr, MkZx SK C fuel0 V sk ck (v', h) st se pr lg), b)).
        { pose proof (watched_should SV (v, h) n) as HW. cbn [zip_cenv ce_should fst snd Zip.x_sv] in *.
          destruct (sv_should V (v, h) n) as [[v' h'] b]. cbn in HW. subst h'. exists v', b. reflexivity. }
        destruct HV as (v' & b & ->). cbn. split; auto.
      - intros [sr y]. cbn. auto.
      - intros [sr y]. cbn. split; [|split]; auto.
      - intros [sr y] (s & w' & d & (_ & _ & H) & _). exact H.
      - cbn. exact Hx.
    Qed.
  End Copy.

  Lemma io_copy_clean w chunks fin : forall x x' r, zclean x -> zip_io_copy SK C fuel0 V w chunks fin x = (x', r) -> zclean x'.
  Proof.
    induction chunks as [|d ds IH]; intros x x' r Hx; cbn [zip_io_copy]; [intros [= <- _]; exact Hx|].
    destruct (k_write SK _ w d) as [s' [[m adv] e]]. destruct e; [intros [= <- _]; exact Hx|].
    destruct (_ =? _)%nat; [|intros [= <- _]; exact Hx]. apply IH. exact Hx.
  Qed.

  Definition zphase (x : zx) (r : res unit) : Prop :=
    zclean x \/ (zstopped x /\ (r = Ok tt \/ exists e, r = Err e)) \/ (zfail x /\ exists e, r = Err e).

  Lemma zip_copy_phases fuel k inj prj rs csize done total e x x' r : (fth = true -> stk_compressed k = true) ->
    zclean x -> zip_copy SK C fuel0 V fuel k inj prj rs csize done total e x = (x', r) -> zphase x' r.
  Proof.
    intros Hf Hx. unfold zip_copy. destruct (s_resume _ _ _) as [src1 r1].
    destruct r1; try (intros [= <- <-]; left; exact Hx).
    destruct (if _ <? _ then _ else _) as [[src2 u] r2]. destruct r2; try (intros [= <- <-]; left; exact Hx).
    destruct (k_getw SK _ e) as [s' [w| | |]]; try (intros [= <- <-]; left; exact Hx).
    match goal with |- context[copier_do ?E ?f ?X] => destruct (copier_do E f X) as [X' r3] eqn:Ed end.
    destruct (zcopy_phases (stk_source k) _ (stk_saves_once k) Hf inj w done total fuel _ (zx_sink SK C fuel0 V x s') X' r3 Hx Ed) as [H|[(H & HR)|(H & e' & ->)]];
      destruct X' as [src3 x2]; cbn [snd] in *; intros [= <- <-].
    - left. exact H.
    - right. left. split; [exact H|]. destruct HR as [->|(e' & ->)]; cbn; eauto.
    - right. right. split; [exact H|]. cbn. eauto.
  Qed.

  Lemma zip_entry_phases io fuel i zf done total x x' r : (fth = true -> (zf_method zf =? zip_store) = false) ->
    zclean x -> zip_entry SK C fuel0 V io fuel i zf done total x = (x', r) -> zphase x' r.
  Proof.
    intros Hf Hx. unfold zip_entry. cbv zeta. set (e := match ec_entry _ with Some _ => _ | None => _ end).
    set (x1 := zx_ck _ _ _ _ x _). assert (H1 : zclean x1) by exact Hx. clearbody x1 e.
    destruct (Z.odd _); [intros [= <- <-]; left; exact H1|].
    destruct (en_kind e).
    - destruct (k_mkdir SK _ e) as [s' [er|]]; intros [= <- <-]; left; exact H1.
    - destruct (zi_open io) as [[chunks [er|]]| | |]; try (intros [= <- <-]; left; exact H1).
      destruct (k_symlink SK _ e _) as [s' [er|]]; intros [= <- <-]; left; exact H1.
    - destruct (_ || _).
      + destruct (zi_dataoff io); try (intros [= <- <-]; left; exact H1).
        destruct (zf_method zf =? zip_store) eqn:Hm.
        * apply zip_copy_phases; [|exact H1]. intros Ht. specialize (Hf Ht). discriminate.
        * apply zip_copy_phases; [|exact H1]. reflexivity.
      + match goal with |- context[zx_ck SK C fuel0 V x1 ?c] => set (x2 := zx_ck SK C fuel0 V x1 c) end.
        assert (H2 : zclean x2) by exact H1. clearbody x2.
        destruct (zi_open io) as [[chunks fin]| | |]; try (intros [= <- <-]; left; exact H2).
        destruct (k_getw SK _ _) as [s' [w| | |]]; try (intros [= <- <-]; left; exact H2).
        destruct (zip_io_copy _ _ _ _ _ _ _ _) as [x3 r3] eqn:Ec. intros [= <- <-]. left. eapply io_copy_clean; [|exact Ec]. exact H2.
    - intros [= <- <-]. left. exact H1.
  Qed.

  Lemma zip_loop_phases io fuel total : forall files i done x x' r,
    (fth = true -> Forall (fun zf => (zf_method zf =? zip_store) = false) files) ->
    zclean x -> zip_loop SK C fuel0 V io fuel files i done total x = (x', r) -> zphase x' r.
  Proof.
    induction files as [|zf rest IH]; intros i done x x' r Hf Hx; cbn [zip_loop]; [intros [= <- <-]; left; exact Hx|].
    rewrite (proj2 Hx). destruct (zip_entry _ _ _ _ _ _ _ _ _ _ x) as [x1 r1] eqn:Ee.
    assert (HP : zphase x1 r1). { eapply zip_entry_phases; [|exact Hx|exact Ee]. intros Ht. specialize (Hf Ht). inversion Hf; auto. }
    destruct r1 as [u|er| |].
    - destruct HP as [HP|[(HP & _)|(_ & e & HP)]]; [|..|discriminate].
      + apply IH; [|exact HP]. intros Ht. specialize (Hf Ht). inversion Hf; auto.
      + destruct HP as (s & w & d & (A & B & D) & HP2). intros HL.
        assert (G : zip_loop SK C fuel0 V io fuel rest (Datatypes.S i) (wrap64 (done + wrap64 (zf_usize zf))) total
          (zx_ck SK C fuel0 V x1 (MkEck None (ec_index (x_ck x1)) None (ec_prog (x_ck x1)) (ec_data (x_ck x1)))) =
          (zx_ck SK C fuel0 V x1 (MkEck None (ec_index (x_ck x1)) None (ec_prog (x_ck x1)) (ec_data (x_ck x1))), Ok tt)).
        { destruct rest; cbn [zip_loop]; [reflexivity|]. cbn [Zip.x_stoperr zx_ck]. rewrite B. reflexivity. }
        rewrite G in HL. injection HL as <- <-. right. left. split; [|auto]. exists s, w, d. split; [split; auto|]. exact HP2.
    - intros [= <- <-]. destruct HP as [HP|[(HP & _)|(HP & _)]]; unfold zphase; cbn [ws]; eauto 7.
    - intros [= <- <-]. destruct HP as [HP|[(_ & [HP|(e & HP)])|(_ & e & HP)]]; try discriminate. left. exact HP.
    - intros [= <- <-]. destruct HP as [HP|[(_ & [HP|(e & HP)])|(_ & e & HP)]]; try discriminate. left. exact HP.
  Qed.
End ZipStop.
