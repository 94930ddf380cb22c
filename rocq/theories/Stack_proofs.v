(** Stack_proofs.v -- clients of lawful sources, and stacks of sources. *)
From Verif Require Import Base Base_proofs Source Seek Decomp CodecSpec Contract Seek_proofs Decomp_proofs Drive SpoilSpec Spoil_proofs.

(** ** Clients *)
Lemma rec_calls {CK} : forall evs (k k' : list (sckpt CK)), calls rec_cb k evs k' ->
  k' = k ++ map fst evs /\ (forall c r, In (c, r) evs -> r = COk).
Proof.
  induction evs as [|[c r] evs IH]; intros k k'; cbn [calls].
  - intros ->. rewrite app_nil_r. split; [reflexivity|]. intros ? ? [].
  - intros (k1 & Hc & H). unfold rec_cb in Hc. injection Hc as <- <-.
    destruct (IH _ _ H) as [-> Hf]. rewrite <- app_assoc. split; [reflexivity|].
    intros c' r' [Hi|Hi]; [congruence|exact (Hf _ _ Hi)].
Qed.

Lemma tr_ok_weaken {CK} D tm (f f' : Prop) late : (f -> f') -> forall (evs : list (tev CK)) pos,
  tr_ok D tm f late pos evs -> tr_ok D tm f' late pos evs.
Proof.
  intros Hf. induction evs as [|ev evs IH]; intros pos; cbn [tr_ok]; [auto|].
  intros (H1 & H2 & H3 & H4 & H5 & H6 & H7). splits; auto.
  intros e He. destruct (H5 e He) as [|(? & ? & ?)]; [left; assumption|right; auto].
Qed.

Lemma tdata_cons {CK} (ev : tev CK) evs : tdata (ev :: evs) = te_data ev ++ tdata evs.
Proof. reflexivity. Qed.

Lemma tr_ok_data {CK} D tm f late : forall (evs : list (tev CK)) pos, tr_ok D tm f late pos evs -> (pos <= length D)%nat ->
  tdata evs = slice D pos (length (tdata evs)) /\ (pos + length (tdata evs) <= length D)%nat.
Proof.
  induction evs as [|ev evs IH]; intros pos; cbn [tr_ok].
  - intros _ Hp. change (tdata []) with (@nil byte). cbn [length]. rewrite slice_0. split; [reflexivity|lia].
  - intros (H1 & H2 & H3 & H4 & H5 & H6 & H7) Hp. destruct (IH _ H7 H2) as [I1 I2].
    rewrite tdata_cons, app_length. split; [|lia]. rewrite slice_app, <- H1, <- I1. reflexivity.
Qed.

Section TraceLaws.
  Context {S : source} {D : bytes} {tm : gerr} (L : laws S D tm).

  (** What holds of a session that starts at byte [o]. *)
  Lemma trace_ok (byt : bool) : (byt = true -> byte_law L) ->
    forall ops st o m st' evs bad,
    Forall (op_ok byt) ops -> lw_at L st o m ->
    trace S st ops = (st', evs, bad) ->
    bad = false /\ tr_ok D tm (~ lw_clean L st) (lw_late L) o evs /\
    (exists m', lw_at L st' (o + length (tdata evs)) m' /\ (m' <= m)%nat) /\
    (lw_clean L st -> lw_clean L st') /\
    (forall ev c, In ev evs -> In c (te_cks ev) -> lw_ck L c) /\
    (lw_quiet L st -> ~ In CWant ops -> lw_quiet L st' /\ forall ev, In ev evs -> te_cks ev = []).
  Proof.
    intros HB. induction ops as [|op ops IH]; intros st o m st' evs bad Hops Hat.
    - injection 1 as <- <- <-. cbn. rewrite Nat.add_0_r. splits; auto; try (intros ? ? []); try (intros; contradiction); try tauto.
      exists m. auto.
    - inversion Hops as [|? ? Hop Hops']; subst. cbn [trace].
      pose proof (lw_at_len _ _ _ L _ _ _ Hat) as [Hol _].
      assert (Hcons : forall op st1 st2 o1 m1 d e cks evs1 (Hcl : lw_clean L st -> lw_clean L st1)
         (Hqu : op <> CWant -> lw_quiet L st -> lw_quiet L st1 /\ cks = []),
         o1 = (o + length d)%nat -> (m1 <= m)%nat ->
         d = slice D o (length d) -> (o + length d <= length D)%nat ->
         (forall n, op = CRead n -> (length d <= n)%nat) -> (op = CReadByte -> e = None -> length d = 1%nat) ->
         (forall x, e = Some x -> x = tm /\ (o + length d)%nat = length D \/ ~ lw_clean L st /\ x <> EEof /\ x <> EReadyToSave) ->
         (forall c, In c cks -> lw_ck L c /\ Z.of_nat o <= ck_off c <= zlen D /\
           match op with
           | CRead _ => ck_off c = Z.of_nat o \/ lw_late L = true /\ ck_off c = Z.of_nat (o + length d)
           | CReadByte => ck_off c <= Z.of_nat o + 1
           | CWant => False
           end) ->
         (tr_ok D tm (~ lw_clean L st1) (lw_late L) o1 evs1 /\
          (exists m', lw_at L st2 (o1 + length (tdata evs1)) m' /\ (m' <= m1)%nat) /\
          (lw_clean L st1 -> lw_clean L st2) /\
          (forall ev c, In ev evs1 -> In c (te_cks ev) -> lw_ck L c) /\
          (lw_quiet L st1 -> ~ In CWant ops -> lw_quiet L st2 /\ forall ev, In ev evs1 -> te_cks ev = [])) ->
         tr_ok D tm (~ lw_clean L st) (lw_late L) o (MkTev op d e cks :: evs1) /\
         (exists m', lw_at L st2 (o + length (tdata (MkTev op d e cks :: evs1))) m' /\ (m' <= m)%nat) /\
         (lw_clean L st -> lw_clean L st2) /\
         (forall ev c, In ev (MkTev op d e cks :: evs1) -> In c (te_cks ev) -> lw_ck L c) /\
         (lw_quiet L st -> ~ In CWant (op :: ops) -> lw_quiet L st2 /\ forall ev, In ev (MkTev op d e cks :: evs1) -> te_cks ev = [])).
      { intros op0 st1 st2 o1 m1 d e cks evs1 Hcl Hqu -> Hm H1 H2 H3 H4 H5 H6 (I1 & (m' & I2 & I3) & I4 & I5 & I6).
        split; [|split; [|split; [|split]]].
        - cbn [tr_ok te_op te_data te_err te_cks]. splits; auto.
          + intros c Hi. destruct (H6 c Hi) as (_ & H7 & H8). auto.
          + eapply tr_ok_weaken; [|exact I1]. tauto.
        - exists m'. rewrite tdata_cons, app_length. cbn [te_data]. rewrite Nat.add_assoc. split; [exact I2|lia].
        - auto.
        - intros ev c [<- | Hi] Hc; [cbn in Hc; exact (proj1 (H6 c Hc))|exact (I5 ev c Hi Hc)].
        - intros Hq Hn. destruct (Hqu ltac:(intros ->; apply Hn; left; reflexivity) Hq) as [Hq1 ->].
          destruct (I6 Hq1 ltac:(intros Hi; apply Hn; right; exact Hi)) as [Hq2 Hall]. split; [exact Hq2|].
          intros ev [<- | Hi]; [reflexivity|exact (Hall ev Hi)]. }
      destruct op as [n| |].
      + cbn in Hop. destruct (s_read S rec_cb st [] n) as [[st1 cks] r] eqn:Hr.
        destruct (lw_read _ _ _ L _ rec_cb st [] n o m st1 cks r Hat Hop Hr) as (cevs & Hcalls & _ & Hgen & Hres).
        destruct (rec_calls _ _ _ Hcalls) as [Hck Hok]. cbn in Hck. subst cks.
        destruct r as [d1 e| |].
        * destruct Hres as (R1 & R2 & (m1 & R3 & R4 & R5) & R9 & R6 & R7 & R8).
          pose proof (lw_at_len _ _ _ L _ _ _ R3) as [Hl _].
          destruct (trace S st1 ops) as [[st2 evs1] bad1] eqn:Ht. injection 1 as <- <- <-.
          destruct (IH st1 _ m1 _ _ _ Hops' R3 Ht) as (-> & I).
          split; [reflexivity|].
          refine (Hcons (CRead n) st1 st2 _ m1 d1 e (map fst cevs) evs1 R6 _ eq_refl R4 R2 Hl _ _ _ _ I).
          -- intros _ Hq. split; [auto|]. destruct cevs as [|[c rr] cevs]; [reflexivity|].
             destruct (Hgen c rr (or_introl eq_refl)). tauto.
          -- intros n0 [= <-]. exact R1.
          -- discriminate.
          -- intros x ->. destruct R8 as [(T1 & T2 & _)|[(c & T)|T]]; [left; auto| |right; exact T].
             specialize (Hok _ _ T). discriminate.
          -- intros c Hi. apply in_map_iff in Hi. destruct Hi as ([c1 r1] & <- & Hi). cbn [fst].
             destruct (Hgen c1 r1 Hi) as [_ Hg]. destruct (R7 c1 r1 Hi) as [_ Hof].
             split; [exact Hg|]. pose proof (lw_ck_len _ _ _ L _ Hg). split; [lia|exact Hof].
        * destruct Hres as (c & Hi). specialize (Hok _ _ Hi). discriminate.
        * destruct Hres.
      + cbn in Hop. destruct (s_readbyte S rec_cb st []) as [[st1 cks] r] eqn:Hr.
        destruct (HB Hop _ rec_cb st [] o m st1 cks r Hat Hr) as (cevs & Hcalls & Hgen & Hres).
        destruct (rec_calls _ _ _ Hcalls) as [Hck Hok]. cbn in Hck. subst cks.
        assert (Hqe : lw_quiet L st -> map fst cevs = []).
        { intros Hq. destruct cevs as [|[c rr] cevs']; [reflexivity|]. destruct (Hgen c rr (or_introl eq_refl)). tauto. }
        assert (Hcks : forall d : bytes, (forall c rr, In (c, rr) cevs -> rr <> CPanic /\ Z.of_nat o <= ck_off c <= Z.of_nat (o + 1)) ->
          forall c, In c (map fst cevs) -> lw_ck L c /\ Z.of_nat o <= ck_off c <= zlen D /\
           match CReadByte with
           | CRead _ => ck_off c = Z.of_nat o \/ lw_late L = true /\ ck_off c = Z.of_nat (o + length d)
           | CReadByte => ck_off c <= Z.of_nat o + 1
           | CWant => False
           end).
        { intros d Hx c Hi. apply in_map_iff in Hi. destruct Hi as ([c1 r1] & <- & Hi). cbn [fst].
          destruct (Hgen c1 r1 Hi) as [_ Hg]. destruct (Hx c1 r1 Hi) as [_ Hof].
          split; [exact Hg|]. pose proof (lw_ck_len _ _ _ L _ Hg). split; lia. }
        destruct r as [b [e|]| |].
        * destruct Hres as (B1 & B2 & B3 & B4).
          destruct B4 as [((m1 & R3 & R4) & B5)|[(c & B4) _]]; [|specialize (Hok _ _ B4); discriminate].
          destruct (trace S st1 ops) as [[st2 evs1] bad1] eqn:Ht. injection 1 as <- <- <-.
          destruct (IH st1 _ m1 _ _ _ Hops' R3 Ht) as (-> & I).
          split; [reflexivity|].
          refine (Hcons CReadByte st1 st2 o m1 [] (Some e) (map fst cevs) evs1 B3 _ _ R4 _ _ _ _ _ (Hcks [] B1) I);
            cbn [length]; try lia; try discriminate; try (rewrite slice_0; reflexivity); auto.
          intros x [= <-]. rewrite Nat.add_0_r. tauto.
        * destruct Hres as (Hn & (m1 & R3 & R4) & R9 & R6 & B1).
          pose proof (lw_at_len _ _ _ L _ _ _ R3) as [Hl _].
          destruct (trace S st1 ops) as [[st2 evs1] bad1] eqn:Ht. injection 1 as <- <- <-.
          destruct (IH st1 _ m1 _ _ _ Hops' R3 Ht) as (-> & I).
          split; [reflexivity|].
          refine (Hcons CReadByte st1 st2 (o + 1)%nat m1 [b] None (map fst cevs) evs1 R6 _ eq_refl _ _ Hl _ _ _ (Hcks [] B1) I);
            cbn [length]; try lia; try discriminate; auto.
          symmetry. apply slice_1. exact Hn.
        * destruct Hres as (c & Hi). specialize (Hok _ _ Hi). discriminate.
        * destruct Hres.
      + destruct (lw_want _ _ _ L st o m Hat) as [H1 H2].
        destruct (trace S (s_want S st) ops) as [[st2 evs1] bad1] eqn:Ht. injection 1 as <- <- <-.
        destruct (IH _ o m _ _ _ Hops' H1 Ht) as (-> & I).
        split; [reflexivity|].
        refine (Hcons CWant (s_want S st) st2 o m [] None [] evs1 H2 _ _ _ _ _ _ _ _ _ I);
          cbn [length]; try lia; try discriminate; auto; try tauto.
        intros c [].
  Qed.

  (** A client that reads often enough comes to the end. *)
  Lemma trace_end : forall n st o m st' evs bad size,
    (0 < size)%nat -> lw_at L st o m -> lw_clean L st -> (m < n)%nat ->
    trace S st (repeat (CRead size) n) = (st', evs, bad) ->
    tdata evs = skipn o D /\ exists ev, In ev evs /\ te_err ev = Some tm.
  Proof.
    induction n as [|n IH]; intros st o m st' evs bad size Hsz Hat Hcl Hm; [lia|].
    cbn [repeat trace]. destruct (s_read S rec_cb st [] size) as [[st1 cks] r] eqn:Hr.
    destruct (lw_read _ _ _ L _ rec_cb st [] size o m st1 cks r Hat Hsz Hr) as (cevs & Hcalls & _ & Hgen & Hres).
    destruct (rec_calls _ _ _ Hcalls) as [_ Hok].
    destruct r as [d1 e| |].
    - destruct Hres as (R1 & R2 & (m1 & R3 & R4 & R5) & _ & R6 & R7 & R8).
      pose proof (lw_at_len _ _ _ L _ _ _ R3) as [Hl _].
      destruct (trace S st1 (repeat (CRead size) n)) as [[st2 evs1] bad1] eqn:Ht. injection 1 as <- <- <-.
      rewrite tdata_cons. cbn [te_data].
      destruct e as [e|].
      + destruct R8 as [(T1 & T2 & _)|[(c & T)|(T1 & T2 & T3)]]; [|specialize (Hok _ _ T); discriminate|tauto].
        assert (Hrest : tdata evs1 = []).
        { destruct (trace_ok false ltac:(discriminate) (repeat (CRead size) n) st1 (o + length d1)%nat m1 st2 evs1 bad1) as (_ & Htr & _).
          - apply Forall_forall. intros x Hx. apply repeat_spec in Hx. subst x. exact Hsz.
          - exact R3.
          - exact Ht.
          - destruct (tr_ok_data _ _ _ _ _ _ Htr Hl) as [_ Hx]. destruct (tdata evs1); [reflexivity|cbn in Hx; lia]. }
        rewrite Hrest, app_nil_r. split; [rewrite R2; apply slice_over; lia|].
        eexists. split; [left; reflexivity|]. cbn. congruence.
      + destruct (IH st1 _ m1 _ _ _ size Hsz R3 (R6 Hcl) ltac:(specialize (R5 eq_refl); lia) Ht) as [Hd (ev & Hi & He)].
        split; [|exists ev; split; [right; exact Hi|exact He]].
        rewrite Hd. rewrite R2 at 1. symmetry. apply skipn_slice_app. exact Hl.
    - destruct Hres as (c & Hi). specialize (Hok _ _ Hi). discriminate.
    - destruct Hres.
  Qed.
End TraceLaws.

(** ** Stacks *)
Section Stacks.
  Context (pol : bool) (data : bytes) (start size : Z).

  Record stk_facts (k : stk) (D : bytes) (tm : gerr) (b : nat) (byt p late : bool) (L : laws (stk_source k) D tm) : Prop := {
    sf_bound : lw_bound L = b;
    sf_pol : lw_polite L = p;
    sf_late : lw_late L = late;
    sf_byte : byt = true -> byte_law L;
    sf_wf : forall rs, rs_of data rs -> stk_flag pol (rs_separate rs) -> lw_wf L (stk_new k rs start size);
    sf_quiet : forall rs, rs_of data rs -> lw_quiet L (stk_new k rs start size);
    sf_clean : forall rs, rs_of data rs -> rs_good rs -> lw_clean L (stk_new k rs start size);
    (** spoilt checkpoints are resumed at an earlier offset, or even exactly *)
    sf_spoil : forall c c', lw_ck L c -> spoilt k c c' ->
      lands L (Some c') 0 (ck_off c) /\ (keeps_state k c' -> lands L (Some c') (ck_off c) (ck_off c)) }.

  Lemma seek_spoil H1 H2 H3 (c c' : sckpt unit) : lw_ck (seek_laws data start size pol H1 H2 H3) c -> spoilt KSeek c c' ->
    lands (seek_laws data start size pol H1 H2 H3) (Some c') 0 (ck_off c).
  Proof.
    intros Hc Hs. cbn in Hs, Hc. unfold seek_ck in Hc.
    assert (Hg : seek_ck data start size c') by (unfold seek_ck; lia).
    eapply lands_weaken; [apply lands_genuine; intros x [= <-]; exact Hg|cbn in *; lia|cbn in *; lia].
  Qed.

  Lemma stk_laws k D tm b byt p late : stk_den pol data start size k D tm b byt p late ->
    exists L : laws (stk_source k) D tm, stk_facts k D tm b byt p late L.
  Proof.
    induction 1 as [H1 H2 H3|C cfg fuel s ID itm b pi li N D tm byt Hs IH Hrun Htm HN Hb Hsav Hpull Hse Hbyt].
    - exists (seek_laws data start size pol H1 H2 H3). split; try reflexivity.
      + intros _. apply seek_byte_law.
      + intros rs Hd Hp. cbn. split; [reflexivity|]. split; [reflexivity|]. split; [exact Hd|]. exact Hp.
      + intros rs Hd [Hg1 Hg2]. split; [|cbn; discriminate]. split; [|exact Hg1].
        cbn. intros [|] Hi; [tauto|reflexivity].
      + intros c c' Hc Hs. split; [exact (seek_spoil H1 H2 H3 c c' Hc Hs)|intros []].
    - destruct IH as [LI [F1 F2 F3 F4 F5 F6 F7 F8]]. subst b pi.
      exists (dcomp_laws C cfg (stk_source s) fuel ID itm LI N D tm (F4 eq_refl) Hrun HN Hb Hsav Hse Htm Hpull).
      split; try reflexivity.
      + intros Hbt. destruct (Hbyt Hbt) as [B1 B2]. apply dcomp_byte_law; [exact B1|exact B2].
      + intros rs Hd Hp. split; [exact (F5 rs Hd Hp)|]. intros _. exact (F6 rs Hd).
      + intros rs Hd. split; [exact (F6 rs Hd)|]. cbn. discriminate.
      + intros rs Hd Hg. split; [exact (F7 rs Hd Hg)|]. cbn. discriminate.
      + intros c c' Hc Hx.
        exact (dcomp_spoil C cfg (stk_source s) fuel ID itm LI N D tm (F4 eq_refl) Hrun HN Hb Hsav Hse Htm Hpull
          (spoilt s) (fun ic ic' h1 h2 => proj1 (F8 ic ic' h1 h2)) c c' Hc Hx).
  Qed.

  Context (k : stk) (D : bytes) (tm : gerr) (b : nat) (byt p late : bool).
  Hypothesis Hden : stk_den pol data start size k D tm b byt p late.

  Section Life.
  Context (L : laws (stk_source k) D tm) (HF : stk_facts k D tm b byt p late L).

  Definition life_inv (rs : rstate) (st : s_st (stk_source k)) (bb : bool) : Prop :=
    lw_wf L st /\ (rs_good rs -> lw_clean L st) /\ (bb = true -> exists o m, lw_at L st o m).

  Scheme life_mind := Minimality for life Sort Prop
    with emitted_mind := Minimality for emitted Sort Prop.
  Combined Scheme life_emitted_ind from life_mind, emitted_mind.

  Lemma life_ok :
    (forall rs st bb, life pol data start size k byt rs st bb -> life_inv rs st bb) /\
    (forall c, emitted pol data start size k byt c -> lw_ck L c).
  Proof.
    apply (life_emitted_ind pol data start size k byt (fun rs st bb => life_inv rs st bb) (fun c => lw_ck L c)).
    - intros rs Hd Hp. destruct (lw_setssc _ _ _ L _ (sf_wf _ _ _ _ _ _ _ _ HF rs Hd Hp)) as (W1 & _ & _ & W4).
      split; [exact W1|]. split; [|discriminate]. intros Hg. apply W4. exact (sf_clean _ _ _ _ _ _ _ _ HF rs Hd Hg).
    - intros rs st bb c st' z Hl (I1 & I2 & I3) Hc1 Hc2 Hr.
      destruct (lw_resume _ _ _ L _ c _ _ I1 Hc2 Hr) as (_ & m & H2 & _ & H3).
      split; [exact (lw_at_wf _ _ _ L _ _ _ H2)|]. split; [auto|]. eauto.
    - intros rs st ops st' evs bad Hl (I1 & I2 & I3) Hops Ht. destruct (I3 eq_refl) as (o & m & Hat).
      destruct (trace_ok L byt (sf_byte _ _ _ _ _ _ _ _ HF) ops st _ m st' evs bad Hops Hat Ht)
        as (_ & _ & (m' & G1 & _) & G2 & _).
      split; [exact (lw_at_wf _ _ _ L _ _ _ G1)|]. split; [auto|]. eauto.
    - intros rs st ops st' evs bad ev c Hl (I1 & I2 & I3) Hops Ht Hi Hc. destruct (I3 eq_refl) as (o & m & Hat).
      destruct (trace_ok L byt (sf_byte _ _ _ _ _ _ _ _ HF) ops st _ m st' evs bad Hops Hat Ht)
        as (_ & _ & _ & _ & G & _). exact (G ev c Hi Hc).
  Qed.
  End Life.

  (** A session on any source object, started from the beginning or from any
      emitted checkpoint. *)
  Theorem stack_session c rs st0 bb st r :
    life pol data start size k byt rs st0 bb ->
    (forall x, c = Some x -> emitted pol data start size k byt x) ->
    s_resume (stk_source k) st0 c = (st, r) ->
    match r with
    | Ok z =>
        z = match c with Some x => ck_off x | None => 0 end /\ 0 <= z <= zlen D /\
        (forall ops st' evs bad, Forall (op_ok byt) ops ->
           trace (stk_source k) st ops = (st', evs, bad) ->
           bad = false /\ tr_ok D tm (~ rs_good rs) late (Z.to_nat z) evs) /\
        (rs_good rs -> exists n0, forall n sz st' evs bad,
           (n0 <= n)%nat -> (0 < sz)%nat ->
           trace (stk_source k) st (repeat (CRead sz) n) = (st', evs, bad) ->
           tdata evs = skipn (Z.to_nat z) D /\ exists ev, In ev evs /\ te_err ev = Some tm)
    | Err e => ~ rs_good rs \/ (D = [] /\ tm <> EEof)
    | _ => False
    end.
  Proof.
    intros Hl Hc Hs. destruct (stk_laws _ _ _ _ _ _ _ Hden) as (L & HF).
    destruct (life_ok L HF) as [Hlife Hem].
    assert (Hck : forall x, c = Some x -> lw_ck L x) by (intros x Hx; apply Hem; auto).
    destruct (Hlife _ _ _ Hl) as (I1 & I2 & _).
    pose proof (lw_resume _ _ _ L _ c _ _ I1 Hck Hs) as H.
    destruct r as [z|e| |]; try exact H.
    2:{ destruct H as [H|H]; [left; tauto|right; exact H]. }
    destruct H as (Hz & m & Hat & _ & Hcl).
    split; [exact Hz|]. split.
    { destruct c as [x|]; subst z; [exact (lw_ck_len _ _ _ L x (Hck x eq_refl))|unfold zlen; lia]. }
    split.
    - intros ops st' evs bad Hops Hdr.
      destruct (trace_ok L byt (sf_byte _ _ _ _ _ _ _ _ HF) ops st _ m st' evs bad Hops Hat Hdr) as (Hb & Htr & _).
      split; [exact Hb|]. rewrite (sf_late _ _ _ _ _ _ _ _ HF) in Htr. eapply tr_ok_weaken; [|exact Htr]. tauto.
    - intros Hg. exists (Datatypes.S m). intros n sz st' evs bad Hn Hsz Hdr.
      apply (trace_end L n st (Z.to_nat z) m st' evs bad sz); auto.
  Qed.
End Stacks.
