(** Props_reenter.v -- properties C67 and C68: calling Resume from within Save,
    and the source tester built on it (checker/sourcetester.go; Reenter.v). *)
From Verif Require Import Base Base_proofs Source Seek Decomp CodecSpec Contract Drive SpoilSpec Stack_proofs Copier Sink Misc Reenter Reenter_proofs Saves_proofs ExCodec Props_misc.

(** A client whose save consumer resumes the source, from within Save, with the checkpoint
    it was given, whenever [dec] says so. It keeps a log of the checkpoints it
    received, with what Resume returned if it was called; it gives up ([CPanic])
    if Resume fails. *)
Definition relog (k : stk) := list (sckpt (s_ck (stk_source k)) * option (res Z)).
Definition rl_before (k : stk) (dec : relog k -> bool) (l : relog k) (c : sckpt (s_ck (stk_source k))) : relog k * option cres :=
  (l ++ [(c, None)], if dec l then None else Some COk).
Definition rl_after (k : stk) (l : relog k) (r : res Z) : relog k * cres :=
  (match rev l with (c, _) :: t => rev t ++ [(c, Some r)] | [] => [] end, match r with Ok _ => COk | _ => CPanic end).
Definition rl_cb (k : stk) (dec : relog k -> bool) : reback (stk_source k) (relog k) :=
  re_cb (stk_source k) (rl_before k dec) (rl_after k).

(** [trace] of Drive.v for such a client (that uses Read and WantSave). The flag
    is set if the client gave up, or a call panicked or did not return. *)
Fixpoint retrace (k : stk) (dec : relog k -> bool) (st : s_st (stk_source k)) (log : relog k) (ops : list cop)
    : s_st (stk_source k) * list (tev (s_ck (stk_source k))) * relog k * bool :=
  match ops with
  | [] => (st, [], log, false)
  | CWant :: ops' =>
      let '(st2, evs, log2, bad) := retrace k dec (s_want (stk_source k) st) log ops' in (st2, MkTev CWant [] None [] :: evs, log2, bad)
  | CRead n :: ops' =>
      match stk_read_re k (rl_cb k dec) st log n with
      | (st1, log1, RRet d e) =>
          let '(st2, evs, log2, bad) := retrace k dec st1 log1 ops' in
          (st2, MkTev (CRead n) d e (map fst (skipn (length log) log1)) :: evs, log2, bad)
      | (st1, log1, _) => (st1, [], log1, true)
      end
  | CReadByte :: ops' => (st, [], log, true)
  end.
Definition reop_ok (o : cop) : Prop := match o with CRead n => (0 < n)%nat | CReadByte => False | CWant => True end.

Section Stack.
  Context (pol : bool) (data : bytes) (start size : Z) (k : stk) (D : bytes) (tm : gerr) (b : nat) (byt p : bool).
  Context (Hden : stk_den pol data start size k D tm b byt p false).
  Notation S := (stk_source k).

  Lemma retrace_ok (L : laws S D tm) : lw_late L = false -> re_law k L ->
    forall ops dec st log o m st' evs log' bad, Forall reop_ok ops -> lw_at L st o m ->
    retrace k dec st log ops = (st', evs, log', bad) ->
    tr_ok D tm (~ lw_clean L st) false o evs /\
    (exists l, log' = log ++ l /\ forall c r, In (c, Some r) l -> r = Ok (ck_off c) \/ bad = true) /\
    (bad = true -> ~ lw_clean L st \/ (D = [] /\ tm <> EEof)).
  Proof.
    intros Hlate Hre. induction ops as [|op ops IH]; intros dec st log o m st' evs log' bad Hops Hat.
    - cbn [retrace]. injection 1 as <- <- <- <-. splits; [exact Logic.I| |discriminate].
      exists []. rewrite app_nil_r. split; [reflexivity|]. intros c r [].
    - inversion Hops as [|? ? Hop Hops']; subst. pose proof (lw_at_len _ _ _ L _ _ _ Hat) as [Hol _].
      destruct op as [n| |]; [|destruct Hop|].
      + cbn [retrace]. destruct (stk_read_re k (rl_cb k dec) st log n) as [[st1 log1] r] eqn:Hr.
        (* one read that went well *)
        assert (Hgo : forall s2 m2 l1, reads_well L s2 o m2 n st1 r -> (lw_clean L st -> lw_clean L s2) -> log1 = log ++ l1 ->
          (forall c, In c (map fst l1) -> ck_off c = Z.of_nat o) -> (forall c z, In (c, Some z) l1 -> z = Ok (ck_off c)) ->
          match r with
          | RRet d e =>
              let '(st2, evs1, log2, bad1) := retrace k dec st1 log1 ops in
              (st2, MkTev (CRead n) d e (map fst (skipn (length log) log1)) :: evs1, log2, bad1)
          | _ => (st1, [], log1, true)
          end = (st', evs, log', bad) ->
          tr_ok D tm (~ lw_clean L st) false o evs /\
          (exists l, log' = log ++ l /\ forall c r, In (c, Some r) l -> r = Ok (ck_off c) \/ bad = true) /\
          (bad = true -> ~ lw_clean L st \/ (D = [] /\ tm <> EEof))).
        { intros s2 m2 l1 (d & e & -> & G1 & G2 & (m' & G3 & G4) & G5 & G6) Hcl Hlog Hc1 Hc2.
          destruct (retrace k dec st1 log1 ops) as [[[st2 evs1] log2] bad1] eqn:Ht. injection 1 as <- <- <- <-.
          destruct (IH dec st1 log1 _ m' st2 evs1 log2 bad1 Hops' G3 Ht) as (I1 & (l2 & I2 & I3) & I4).
          pose proof (lw_at_len _ _ _ L _ _ _ G3) as [Hl _].
          splits.
          - cbn [tr_ok te_op te_data te_err te_cks]. splits; auto.
            + intros n0 [= <-]. exact G1.
            + discriminate.
            + intros x Hx. destruct (G6 x Hx) as [H|(H1 & H2)]; [left; exact H|right; split; [tauto|exact H2]].
            + intros c Hi. subst log1. rewrite skipn_app, skipn_all, Nat.sub_diag in Hi. cbn [app skipn] in Hi.
              rewrite (Hc1 c Hi). unfold zlen. split; [lia|left; reflexivity].
            + eapply tr_ok_weaken; [|exact I1]. tauto.
          - exists (l1 ++ l2). subst log1. rewrite <- app_assoc in I2. split; [exact I2|]. intros c z Hi.
            apply in_app_or in Hi. destruct Hi as [Hi|Hi]; [left; exact (Hc2 c z Hi)|exact (I3 c z Hi)].
          - intros Hb. destruct (I4 Hb) as [H|H]; [left; tauto|right; exact H]. }
        destruct (Hre _ (rl_before k dec) (rl_after k) st log n o m st1 log1 r Hlate Hat Hop Hr)
          as [(-> & Hrw & _)|(c & kk1 & b0 & s1 & m1 & Hck & Hoff & Hnq & Hat1 & Hcl1 & Hbef & Hcase)].
        * apply (Hgo st m []); auto; [rewrite app_nil_r; reflexivity|intros c []|intros c z []].
        * unfold rl_before in Hbef. injection Hbef as <- <-. destruct (dec log) eqn:Hdec.
          -- destruct Hcase as (s2 & rr & cr & Hres & Haft & Hcase). unfold rl_after in Haft. rewrite rev_app_distr in Haft. cbn [rev app] in Haft.
             rewrite rev_involutive in Haft. injection Haft as <- <-.
             pose proof (lw_resume _ _ _ L s1 (Some c) s2 rr (lw_at_wf _ _ _ L _ _ _ Hat1) ltac:(intros x [= <-]; exact Hck) Hres) as Hlaw.
             destruct rr as [z|e| |].
             ++ destruct Hlaw as (-> & m2 & Hat2 & _ & Hcl2). rewrite Hoff, Nat2Z.id in Hat2.
                apply (Hgo s2 m2 [(c, Some (Ok (ck_off c)))]); auto.
                ** intros c0 [<- | []]. exact Hoff.
                ** intros c0 z [[= <- <-]|[]]. reflexivity.
             ++ rewrite Hcase. injection 1 as <- <- <- <-. splits; [exact Logic.I| |].
                ** eexists. split; [reflexivity|]. auto.
                ** intros _. destruct Hlaw as [H|H]; [left; tauto|right; exact H].
             ++ destruct Hlaw.
             ++ destruct Hlaw.
          -- destruct Hcase as (-> & Hrw). apply (Hgo s1 m1 [(c, None)]); auto.
             ++ intros c0 [<- | []]. exact Hoff.
             ++ intros c0 z [[= ]|[]].
      + cbn [retrace]. destruct (lw_want _ _ _ L st o m Hat) as [H1 H2].
        destruct (retrace k dec (s_want S st) log ops) as [[[st2 evs1] log2] bad1] eqn:Ht. injection 1 as <- <- <- <-.
        destruct (IH dec _ log o m _ _ _ _ Hops' H1 Ht) as (I1 & I2 & I3).
        splits; auto.
        * cbn [tr_ok te_op te_data te_err te_cks]. change (length (@nil byte)) with 0%nat. rewrite Nat.add_0_r. splits; auto; try discriminate.
          -- intros c [].
          -- eapply tr_ok_weaken; [|exact I1]. tauto.
        * intros Hb. destruct (I3 Hb) as [H|H]; [left; tauto|right; exact H].
  Qed.

  (** C67. After any successful Resume in the life of a source, a client that
      resumes it again and again from within Save, whenever it likes, reads the same
      bytes as one that does not: every operation delivers the next bytes, and
      every such Resume returns the offset of the checkpoint, which is the
      position of the client. Only a failure of the storage can end this. *)
  Theorem C67_resume_within_save rs st0 bb c st z dec ops st' evs log bad :
    life pol data start size k byt rs st0 bb -> (forall x, c = Some x -> emitted pol data start size k byt x) ->
    s_resume S st0 c = (st, Ok z) -> Forall reop_ok ops ->
    retrace k dec st [] ops = (st', evs, log, bad) ->
    tr_ok D tm (~ rs_good rs) false (Z.to_nat z) evs /\
    (forall c1 r, In (c1, Some r) log -> r = Ok (ck_off c1) \/ bad = true) /\
    (bad = true -> ~ rs_good rs \/ (D = [] /\ tm <> EEof)).
  Proof.
    intros Hl Hc Hs Hops Ht. destruct (stk_laws_re _ _ _ _ _ _ _ _ _ _ _ Hden) as (L & HF & Hre).
    destruct (life_ok pol data start size k D tm b byt p false L HF) as [Hlife Hem].
    destruct (Hlife _ _ _ Hl) as (I1 & I2 & _).
    pose proof (lw_resume _ _ _ L _ c _ _ I1 ltac:(intros x Hx; apply Hem; auto) Hs) as (Hz & m & Hat & _ & Hcl).
    destruct (retrace_ok L (sf_late _ _ _ _ _ _ _ _ _ _ _ _ HF) Hre ops dec st [] _ m st' evs log bad Hops Hat Ht) as (R1 & (l & -> & R2) & R3).
    splits.
    - eapply tr_ok_weaken; [|exact R1]. tauto.
    - exact R2.
    - intros Hb. destruct (R3 Hb) as [H|H]; [left; tauto|right; exact H].
  Qed.
End Stack.

(** ** C68: checker/sourcetester.go *)
Section Tester.
  Context (pol : bool) (data : bytes) (start size : Z) (k : stk) (D : bytes) (tm : gerr) (b : nat) (byt p : bool).
  Notation S := (stk_source k).

  Lemma cw_write_next ref o d w di n r : (o <= length ref)%nat -> cw_write (MkCw ref (Z.of_nat o)) None d = (w, di, (n, r)) ->
    (r = Ok tt -> w = MkCw ref (Z.of_nat (o + length d)) /\ d = slice ref o (length d)) /\
    (d = slice ref o (length d) -> r = Ok tt).
  Proof.
    intros Ho H. destruct (C52_checker_write ref (Z.of_nat o) None d w di n r ltac:(unfold zlen; lia) H) as (H1 & H2 & H3 & H4 & H5 & H6 & H7 & H8 & H9).
    rewrite Nat2Z.id in H7. split; [|apply H7]. intros Hr. split; [|apply H7, Hr]. apply H8 in Hr. subst n.
    destruct w as [wr wo]. cbn [cw_ref cw_off] in *. subst. f_equal. lia.
  Qed.

  (** the plain copy *)
  Lemma st_copy_sound (L : laws S D tm) copybuf : (0 < copybuf)%nat -> forall fuel st o m ref st' w',
    lw_at L st o m -> (o <= length ref)%nat -> firstn o ref = firstn o D ->
    st_copy k copybuf fuel st (MkCw ref (Z.of_nat o)) = (st', w', None) ->
    tm = EEof /\ (exists extra, ref = D ++ extra) /\ w' = MkCw ref (zlen D) /\ lw_wf L st'.
  Proof.
    intros Hn. induction fuel as [|f IH]; intros st o m ref st' w' Hat Hor Hpre; cbn [st_copy]; [discriminate|].
    destruct (s_read S rec_cb st [] copybuf) as [[st1 l1] r] eqn:E.
    destruct (lw_read _ _ _ L _ rec_cb st [] copybuf o m st1 l1 r Hat Hn E) as (evs & Hcalls & _ & _ & Hres).
    destruct (rec_calls _ _ _ Hcalls) as [_ Hok].
    destruct r as [d e| |]; [|discriminate|discriminate].
    destruct Hres as (R1 & R2 & (m1 & R3 & R4 & R5) & _ & R6 & _ & R8).
    assert (Hw : forall w1 r1, match d with [] => (MkCw ref (Z.of_nat o), Ok tt) | _ => let '(w1, _, (_, r)) := cw_write (MkCw ref (Z.of_nat o)) None d in (w1, r) end = (w1, r1) ->
      r1 = Ok tt -> w1 = MkCw ref (Z.of_nat (o + length d)) /\ d = slice ref o (length d)).
    { intros w1 r1. destruct d as [|x d]; [intros [= <- <-] _; cbn [length]; rewrite Nat.add_0_r, slice_0; auto|].
      destruct (cw_write _ None _) as [[w di] [n rr]] eqn:Ew. intros [= <- <-] Hr. exact (proj1 (cw_write_next _ _ _ _ _ _ _ Hor Ew) Hr). }
    match type of Hw with forall w1 r1, ?X = _ -> _ => destruct X as [w1 [[]|?| |]] eqn:Ew; try discriminate end.
    destruct (Hw _ _ eq_refl eq_refl) as [-> Hd].
    pose proof (lw_at_len _ _ _ L _ _ _ R3) as [Hl _].
    assert (Hlr : (o + length d <= length ref)%nat).
    { pose proof (f_equal (@length _) Hd) as Hx. unfold slice in Hx. rewrite firstn_length, skipn_length in Hx. lia. }
    assert (Hpre' : firstn (o + length d) ref = firstn (o + length d) D).
    { rewrite !firstn_split, Hpre. f_equal. unfold slice in *. congruence. }
    destruct e as [e|].
    - destruct e; try discriminate. injection 1 as <- <-.
      destruct R8 as [(H1 & H2 & _)|[(c & Hi)|(_ & H & _)]]; [|specialize (Hok _ _ Hi); discriminate|congruence].
      splits; [auto| |f_equal; unfold zlen; lia|exact (lw_at_wf _ _ _ L _ _ _ R3)].
      exists (skipn (length D) ref). rewrite H1, firstn_all in Hpre'. rewrite <- Hpre' at 1. symmetry. apply firstn_skipn.
    - intros Hc. exact (IH st1 _ m1 ref st' w' R3 Hlr Hpre' Hc).
  Qed.

  Lemma st_copy_complete (L : laws S D tm) copybuf : (0 < copybuf)%nat -> tm = EEof -> forall fuel st o m extra,
    lw_at L st o m -> lw_clean L st -> (m < fuel)%nat ->
    exists st', st_copy k copybuf fuel st (MkCw (D ++ extra) (Z.of_nat o)) = (st', MkCw (D ++ extra) (zlen D), None) /\ lw_wf L st' /\ lw_clean L st' /\
      (lw_quiet L st -> lw_quiet L st').
  Proof.
    intros Hn Htm. induction fuel as [|f IH]; intros st o m extra Hat Hcl Hf; cbn [st_copy]; [lia|].
    destruct (s_read S rec_cb st [] copybuf) as [[st1 l1] r] eqn:E.
    destruct (lw_read _ _ _ L _ rec_cb st [] copybuf o m st1 l1 r Hat Hn E) as (evs & Hcalls & _ & _ & Hres).
    destruct (rec_calls _ _ _ Hcalls) as [_ Hok].
    destruct r as [d e| |]; [|destruct Hres as (c & Hi); specialize (Hok _ _ Hi); discriminate|destruct Hres].
    destruct Hres as (R1 & R2 & (m1 & R3 & R4 & R5) & Rq & R6 & _ & R8).
    pose proof (lw_at_len _ _ _ L _ _ _ R3) as [Hl _].
    assert (Hd : d = slice (D ++ extra) o (length d)).
    { rewrite R2 at 1. unfold slice. rewrite skipn_app, firstn_app.
      replace (o - length D)%nat with 0%nat by lia. cbn [skipn]. rewrite skipn_length.
      replace (length d - (length D - o))%nat with 0%nat by lia. cbn [firstn]. symmetry. apply app_nil_r. }
    assert (Hw : match d with [] => (MkCw (D ++ extra) (Z.of_nat o), Ok tt) | _ => let '(w1, _, (_, r)) := cw_write (MkCw (D ++ extra) (Z.of_nat o)) None d in (w1, r) end
      = (MkCw (D ++ extra) (Z.of_nat (o + length d)), Ok tt)).
    { destruct d as [|x d]; [cbn [length]; rewrite Nat.add_0_r; reflexivity|].
      destruct (cw_write _ None _) as [[w di] [n rr]] eqn:Ew.
      assert (Ho : (o <= length (D ++ extra))%nat) by (rewrite app_length; lia).
      destruct (cw_write_next _ _ _ _ _ _ _ Ho Ew) as [W1 W2]. rewrite (W2 Hd) in *. destruct (W1 eq_refl) as [-> _]. reflexivity. }
    rewrite Hw. clear Hw.
    destruct e as [e|].
    - destruct R8 as [(H1 & H2 & _)|[(c & Hi)|(H & _)]]; [|specialize (Hok _ _ Hi); discriminate|contradiction].
      assert (He : e = EEof) by congruence. rewrite He. exists st1. splits; auto; [|exact (lw_at_wf _ _ _ L _ _ _ R3)].
      f_equal. f_equal. f_equal. unfold zlen. lia.
    - destruct (IH st1 _ m1 extra R3 (R6 Hcl) ltac:(specialize (R5 eq_refl); lia)) as (st' & I1 & I2 & I3 & I4). eauto 10.
  Qed.

  (** reading with the consumer that resumes; [W]: the number of WantSave calls so far *)
  Lemma st_loop_complete (L : laws S D tm) bufsz thr maxr : lw_late L = false -> re_law k L -> (0 < bufsz)%nat -> tm = EEof -> 0 <= thr ->
    forall fuel st o m extra num total counter W,
    lw_at L st o m -> lw_clean L st -> ((maxr - num) * Datatypes.S (lw_bound L) + m < fuel)%nat -> (num <= maxr)%nat ->
    bl_ok (stk_budget k) st -> (num + bl (stk_budget k) st <= W)%nat -> Z.of_nat W * (thr + 1) + counter <= Z.of_nat o -> 0 <= counter ->
    let v := st_loop k bufsz thr maxr fuel st (MkTacc (MkCw (D ++ extra) (Z.of_nat o)) num total None) counter in
    v = TPass \/ v = TNoCheckpoint \/ v = TTooMany /\ (Z.of_nat maxr + 1) * (thr + 1) <= zlen D.
  Proof.
    intros Hlate Hre Hn Htm Hthr. induction fuel as [|f IH]; intros st o m extra num total counter W Hat Hcl Hf Hmax Hbk HW Hcnt Hc0; cbn [st_loop]; [lia|].
    pose proof (lw_at_len _ _ _ L _ _ _ Hat) as [Ho _].
    destruct (stk_read_re k (re_cb S (st_before k maxr) (st_after)) st (MkTacc (MkCw (D ++ extra) (Z.of_nat o)) num total None) bufsz) as [[st1 a1] r] eqn:E.
    assert (Hpanic : forall a x, x = Panic \/ x = Hang -> snd (st_after a x) = CPanic) by (intros a x [-> | ->]; reflexivity).
    destruct (re_left k _ (st_before k maxr) st_after st _ bufsz st1 a1 r Hpanic Hbk E) as [HL1 HL2].
    (* one read that went well *)
    assert (Hgo : forall s2 m2 num' total', reads_well L s2 o m2 bufsz st1 r -> lw_clean L s2 -> (num' <= maxr)%nat -> (num' <= W)%nat ->
      a1 = MkTacc (MkCw (D ++ extra) (Z.of_nat o)) num' total' None -> (num' = num \/ num' = Datatypes.S num) ->
      (forall d, r = RRet d None -> exists m', lw_at L st1 (o + length d) m' /\ ((maxr - num') * Datatypes.S (lw_bound L) + m' < f)%nat) ->
      let v := match r with
         | RRet d e =>
             let c1 := counter + zlen d in
             let '(st2, c2) := if c1 >? thr then (s_want S st1, 0) else (st1, c1) in
             let '(w1, _, (_, r)) := cw_write (tc_out a1) None d in
             let a2 := MkTacc w1 (tc_num a1) (tc_total a1) (tc_fail a1) in
             match r with
             | Ok _ => match e with
                       | None => st_loop k bufsz thr maxr f st2 a2 c2
                       | Some EEof => if (0 <? tc_total a2)%nat then TPass else TNoCheckpoint
                       | Some e => TReadFailed e
                       end
             | _ => TMismatch
             end
         | RPanic => match tc_fail a1 with Some v => v | None => TPanicked end
         | RHang => THung
         end in v = TPass \/ v = TNoCheckpoint \/ v = TTooMany /\ (Z.of_nat maxr + 1) * (thr + 1) <= zlen D).
    { intros s2 m2 num' total' (d & e & -> & G1 & G2 & (m' & G3 & G4) & G5 & G6) Hcl2 Hmax' HW' -> Hnum Hdec. cbv zeta. cbn [tc_out tc_num tc_total tc_fail].
      pose proof (lw_at_len _ _ _ L _ _ _ G3) as [Hl _].
      assert (Hd : d = slice (D ++ extra) o (length d)).
      { rewrite G2 at 1. unfold slice. rewrite skipn_app, firstn_app.
        replace (o - length D)%nat with 0%nat by lia. cbn [skipn]. rewrite skipn_length.
        replace (length d - (length D - o))%nat with 0%nat by lia. cbn [firstn]. symmetry. apply app_nil_r. }
      destruct (cw_write (MkCw (D ++ extra) (Z.of_nat o)) None d) as [[w di] [nn rr]] eqn:Ew.
      assert (Hor : (o <= length (D ++ extra))%nat) by (rewrite app_length; lia).
      destruct (cw_write_next _ _ _ _ _ _ _ Hor Ew) as [W1 W2]. rewrite (W2 Hd) in *. destruct (W1 eq_refl) as [-> _].
      destruct e as [e|].
      - destruct (G6 e eq_refl) as [(H1 & H2)|(H & _)]; [|contradiction]. assert (He : e = EEof) by congruence. rewrite He.
        destruct (counter + zlen d >? thr); destruct (0 <? total')%nat; auto.
      - destruct (Hdec d eq_refl) as (m3 & H1 & H2). destruct (HL2 d None eq_refl) as [B1 B2].
        assert (HW1 : (num' + bl (stk_budget k) st1 <= W)%nat).
        { destruct B2 as [[B2 B3]|B2]; [injection B2 as B2 _; lia|lia]. }
        destruct (Z.gtb_spec (counter + zlen d) thr) as [Hgt|Hle].
        + destruct (lw_want _ _ _ L st1 _ _ H1) as [X1 X2]. destruct (bl_want (stk_budget k) st1 B1) as [Y1 Y2].
          apply (IH _ _ _ _ _ _ _ (Datatypes.S W) X1 (X2 (G5 Hcl2)) H2 Hmax' Y1); [lia| |lia].
          unfold zlen in *. rewrite Nat2Z.inj_succ, Z.mul_succ_l. lia.
        + apply (IH _ _ _ _ _ _ _ W H1 (G5 Hcl2) H2 Hmax' B1 HW1); unfold zlen in *; lia. }
    destruct (Hre _ (st_before k maxr) st_after st _ bufsz o m st1 a1 r Hlate Hat Hn E)
      as [(Ha1 & Hrw & Hdec & _)|(c & kk1 & b0 & s1 & m1 & Hck & Hoff & Hnq & Hat1 & Hcl1 & Hbef & Hcase)].
    - apply (Hgo st m num total); auto; [lia|]. intros d ->. destruct (Hdec d eq_refl) as (m' & H1 & H2). exists m'. split; [exact H1|lia].
    - unfold st_before in Hbef. cbn [tc_out tc_num tc_total tc_fail] in Hbef.
      destruct (Nat.ltb_spec maxr (Datatypes.S num)) as [Hlt|Hge].
      + injection Hbef as <- <-. destruct Hcase as [Ha1 ->]. cbn [tc_fail]. right. right. rewrite Ha1. cbn [tc_fail]. split; [reflexivity|].
        destruct HL1 as [H|H]; [rewrite Ha1 in H; injection H; lia|].
        assert (Hm : (maxr + 1 <= W)%nat) by lia. apply Z.le_trans with (Z.of_nat W * (thr + 1)); [apply Z.mul_le_mono_nonneg_r; lia|unfold zlen; lia].
      + injection Hbef as <- <-. destruct Hcase as (s2 & rr & cr & Hres & Haft & Hcase).
        pose proof (lw_resume _ _ _ L s1 (Some c) s2 rr (lw_at_wf _ _ _ L _ _ _ Hat1) ltac:(intros x [= <-]; exact Hck) Hres) as Hlaw.
        destruct rr as [z|e| |]; [|destruct Hlaw as [H|[_ H]]; [tauto|contradiction]|destruct Hlaw|destruct Hlaw].
        destruct Hlaw as (-> & m2 & Hat2 & _ & Hcl2). rewrite Hoff, Nat2Z.id in Hat2.
        unfold st_after in Haft. rewrite Hoff in Haft. cbn [tc_out tc_num tc_total tc_fail] in Haft.
        assert (Hsk : cw_seek (MkCw (D ++ extra) (Z.of_nat o)) (Z.of_nat o) 0 = (MkCw (D ++ extra) (Z.of_nat o), Ok (Z.of_nat o))).
        { unfold cw_seek. cbn [Z.eqb negb cw_ref]. unfold zlen. rewrite app_length.
          destruct (Z.gtb_spec (Z.of_nat o) (Z.of_nat (length D + length extra))); [lia|].
          destruct (Z.ltb_spec (Z.of_nat o) 0); [lia|reflexivity]. }
        rewrite Hsk in Haft. injection Haft as Ha1 <-.
        specialize (Hcase m2 Hat2). apply (Hgo s2 m2 (Datatypes.S num) (Datatypes.S total)); auto.
        { destruct HL1 as [H|H]; [rewrite <- Ha1 in H; injection H; lia|lia]. }
        intros d ->. destruct Hcase as (d0 & e0 & [= <- <-] & _ & _ & (m' & H1 & H2) & _).
        exists m'. split; [exact H1|]. pose proof (lw_at_len _ _ _ L _ _ _ H1) as [_ Hb].
        replace (maxr - num)%nat with (Datatypes.S (maxr - Datatypes.S num)) in Hf by lia. cbn [Nat.mul] in Hf. lia.
  Qed.

  (** while no save is requested none is made *)
  Lemma st_loop_short (L : laws S D tm) bufsz thr maxr : lw_late L = false -> re_law k L -> (0 < bufsz)%nat -> tm = EEof -> zlen D <= thr ->
    forall fuel st o m extra counter,
    lw_at L st o m -> lw_clean L st -> lw_quiet L st -> (m < fuel)%nat -> counter = Z.of_nat o ->
    st_loop k bufsz thr maxr fuel st (MkTacc (MkCw (D ++ extra) (Z.of_nat o)) 0 0 None) counter = TNoCheckpoint.
  Proof.
    intros Hlate Hre Hn Htm Hthr. induction fuel as [|f IH]; intros st o m extra counter Hat Hcl Hq Hf ->; cbn [st_loop]; [lia|].
    pose proof (lw_at_len _ _ _ L _ _ _ Hat) as [Ho _].
    destruct (stk_read_re k (re_cb S (st_before k maxr) (st_after)) st (MkTacc (MkCw (D ++ extra) (Z.of_nat o)) 0 0 None) bufsz) as [[st1 a1] r] eqn:E.
    destruct (Hre _ (st_before k maxr) st_after st _ bufsz o m st1 a1 r Hlate Hat Hn E)
      as [(-> & (d & e & -> & G1 & G2 & (m' & G3 & G4) & G5 & G6) & Hdec & Hq1)|(c & kk1 & b0 & s1 & m1 & Hck & Hoff & Hnq & _)]; [|contradiction].
    cbv zeta. cbn [tc_out tc_num tc_total tc_fail].
    pose proof (lw_at_len _ _ _ L _ _ _ G3) as [Hl _].
    assert (Hd : d = slice (D ++ extra) o (length d)).
    { rewrite G2 at 1. unfold slice. rewrite skipn_app, firstn_app.
      replace (o - length D)%nat with 0%nat by lia. cbn [skipn]. rewrite skipn_length.
      replace (length d - (length D - o))%nat with 0%nat by lia. cbn [firstn]. symmetry. apply app_nil_r. }
    destruct (cw_write (MkCw (D ++ extra) (Z.of_nat o)) None d) as [[w di] [nn rr]] eqn:Ew.
    assert (Hor : (o <= length (D ++ extra))%nat) by (rewrite app_length; lia).
    destruct (cw_write_next _ _ _ _ _ _ _ Hor Ew) as [W1 W2]. rewrite (W2 Hd) in *. destruct (W1 eq_refl) as [-> _].
    destruct (Z.gtb_spec (Z.of_nat o + zlen d) thr) as [Hbad|_]; [unfold zlen in *; lia|].
    destruct e as [e|].
    - destruct (G6 e eq_refl) as [(H1 & H2)|(H & _)]; [|contradiction]. assert (He : e = EEof) by congruence. rewrite He. reflexivity.
    - destruct (Hdec d eq_refl) as (m3 & H1 & H2). apply (IH _ _ m3); auto; [lia|]. unfold zlen. lia.
  Qed.

  Context (Hden : stk_den pol data start size k D tm b byt p false).

  (** C68. RunSourceTest never blames a correct source: if the stack stands for
      the bytes D followed by io.EOF and the storage works, the test with
      reference D passes, or says that there was no checkpoint or that
      there were too many; the latter only if D has more than maxResumes times
      [thr] bytes (32 MiB with the constants of the code), and the former always if D has at most [thr] bytes
      (256 KiB). The reference may even be longer than D. *)
  Theorem C68_tester_correct_source rs copybuf bufsz thr maxr extra :
    rs_of data rs -> stk_flag pol (rs_separate rs) -> rs_good rs -> tm = EEof -> (0 < copybuf)%nat -> (0 < bufsz)%nat -> 0 <= thr ->
    exists B, forall fuel, (B <= fuel)%nat ->
      let v := run_source_test k copybuf bufsz thr maxr fuel (stk_new k rs start size) (D ++ extra) in
      (v = TPass \/ v = TNoCheckpoint \/ v = TTooMany /\ (Z.of_nat maxr + 1) * (thr + 1) <= zlen D) /\
      (zlen D <= thr -> v = TNoCheckpoint).
  Proof.
    intros Hrs Hfl Hg Htm Hcb Hbs Hthr. destruct (stk_laws_re _ _ _ _ _ _ _ _ _ _ _ Hden) as (L & HF & Hre).
    exists (Datatypes.S (Datatypes.S maxr * Datatypes.S (lw_bound L))). intros fuel Hfuel. cbv zeta. unfold run_source_test.
    set (st0 := stk_new k rs start size).
    pose proof (sf_wf _ _ _ _ _ _ _ _ _ _ _ _ HF rs Hrs Hfl) as Hwf. pose proof (sf_clean _ _ _ _ _ _ _ _ _ _ _ _ HF rs Hrs Hg) as Hcl.
    pose proof (sf_quiet _ _ _ _ _ _ _ _ _ _ _ _ HF rs Hrs) as Hq. fold st0 in Hwf, Hcl, Hq.
    destruct (stk_new_budget rs start size k) as [Hb0 Hb1]. fold st0 in Hb0, Hb1.
    destruct (s_resume S st0 None) as [st1 r1] eqn:E1.
    pose proof (lw_resume _ _ _ L st0 None st1 r1 Hwf ltac:(discriminate) E1) as H1.
    destruct r1 as [z1|e1| |]; [|destruct H1 as [H1|[_ H1]]; contradiction|destruct H1|destruct H1].
    destruct H1 as (-> & m1 & Hat1 & Hq1 & Hcl1). cbn [Z.to_nat] in Hat1.
    pose proof (lw_at_len _ _ _ L _ _ _ Hat1) as [_ Hm1].
    destruct (st_copy_complete L copybuf Hcb Htm fuel st1 0 m1 extra Hat1 (Hcl1 Hcl) ltac:(cbn [Nat.mul] in Hfuel; lia)) as (st2 & Ec & Hwf2 & Hcl2 & Hq2).
    change (cw_new (D ++ extra)) with (MkCw (D ++ extra) (Z.of_nat 0)). rewrite Ec.
    assert (Hb2 : bl_ok (stk_budget k) st2 /\ bl (stk_budget k) st2 = 0%nat).
    { destruct (bl_resume (stk_budget k) st0 None st1 _ Hb0 E1 ltac:(discriminate) ltac:(discriminate)) as [X1 X2]. rewrite Hb1 in X2.
      revert X1 X2 Ec. generalize (MkCw (D ++ extra) (Z.of_nat 0)) (MkCw (D ++ extra) (zlen D)). clear. revert st1.
      induction fuel as [|f IH]; intros st1 w0 w1 X1 X2; cbn [st_copy]; [discriminate|].
      destruct (s_read S rec_cb st1 [] copybuf) as [[st3 l1] [d e| |]] eqn:E; [|discriminate|discriminate].
      destruct (bl_read (stk_budget k) _ rec_cb st1 [] copybuf st3 l1 d e X1 E) as (evs & _ & Y1 & Y2 & _).
      match goal with |- (let '(_, _) := ?X in _) = _ -> _ => destruct X as [w3 [[]|?| |]] end; try discriminate.
      destruct e as [[]|]; try discriminate; [intros [= <- <-]; split; [exact Y2|lia]|]. intros Hc. apply (IH st3 w3 w1 Y2 ltac:(lia) Hc). }
    destruct Hb2 as [Hb2 Hb3].
    destruct (s_resume S st2 None) as [st3 r3] eqn:E3.
    pose proof (lw_resume _ _ _ L st2 None st3 r3 Hwf2 ltac:(discriminate) E3) as H3.
    destruct r3 as [z3|e3| |]; [|destruct H3 as [H3|[_ H3]]; contradiction|destruct H3|destruct H3].
    destruct H3 as (-> & m3 & Hat3 & Hq3 & Hcl3). cbn [Z.to_nat] in Hat3.
    destruct (bl_resume (stk_budget k) st2 None st3 _ Hb2 E3 ltac:(discriminate) ltac:(discriminate)) as [Hb4 Hb5].
    pose proof (C52_checker_seek (MkCw (D ++ extra) (zlen D)) 0 0) as Hsk.
    destruct (cw_seek (MkCw (D ++ extra) (zlen D)) 0 0) as [w4 [z4|e4| |]]; [|unfold zlen in Hsk; cbn [cw_ref] in Hsk; lia|destruct Hsk|destruct Hsk].
    destruct Hsk as (_ & _ & -> & ->). cbn [cw_ref]. change 0 with (Z.of_nat 0) at 3 6.
    destruct (lw_setssc _ _ _ L st3 (lw_at_wf _ _ _ L _ _ _ Hat3)) as (_ & S1 & S2 & S3).
    destruct (bl_setssc (stk_budget k) st3 Hb4) as [Hb6 Hb7].
    pose proof (lw_at_len _ _ _ L _ _ _ Hat3) as [_ Hm3].
    split.
    - apply (st_loop_complete L bufsz thr maxr (sf_late _ _ _ _ _ _ _ _ _ _ _ _ HF) Hre Hbs Htm Hthr fuel _ 0 m3 extra 0 0 0 0); auto; lia.
    - intros Hd. apply (st_loop_short L bufsz thr maxr (sf_late _ _ _ _ _ _ _ _ _ _ _ _ HF) Hre Hbs Htm Hd fuel _ 0 m3); auto.
      cbn [Nat.mul] in Hfuel. lia.
  Qed.

  (** C68, the other direction, as far as it holds: if the test passes, then the source ends
      with io.EOF and everything it delivers agrees with the reference -- of which it is a prefix. *)
  Theorem C68_tester_sound_partial rs copybuf bufsz thr maxr fuel ref :
    rs_of data rs -> stk_flag pol (rs_separate rs) -> (0 < copybuf)%nat ->
    run_source_test k copybuf bufsz thr maxr fuel (stk_new k rs start size) ref = TPass ->
    tm = EEof /\ exists extra, ref = D ++ extra.
  Proof.
    intros Hrs Hfl Hcb. destruct (stk_laws_re _ _ _ _ _ _ _ _ _ _ _ Hden) as (L & HF & _). unfold run_source_test.
    pose proof (sf_wf _ _ _ _ _ _ _ _ _ _ _ _ HF rs Hrs Hfl) as Hwf.
    destruct (s_resume S (stk_new k rs start size) None) as [st1 r1] eqn:E1.
    pose proof (lw_resume _ _ _ L _ None st1 r1 Hwf ltac:(discriminate) E1) as H1.
    destruct r1 as [z1|e1| |]; try discriminate. destruct H1 as (-> & m1 & Hat1 & _). cbn [Z.to_nat] in Hat1.
    destruct (st_copy k copybuf fuel st1 (cw_new ref)) as [[st2 w] [v|]] eqn:Ec.
    { intros ->. exfalso. revert Ec. generalize (cw_new ref). clear. revert st1. induction fuel as [|f IH]; intros st1 w0; cbn [st_copy]; [discriminate|].
      destruct (s_read S rec_cb st1 [] copybuf) as [[st3 l1] [d e| |]]; [|discriminate|discriminate].
      match goal with |- (let '(_, _) := ?X in _) = _ -> _ => destruct X as [w3 [[]|?| |]] end; try discriminate.
      destruct e as [[]|]; try discriminate. apply IH. }
    intros _. destruct (st_copy_sound L copybuf Hcb fuel st1 0 m1 ref st2 w Hat1 ltac:(lia) eq_refl Ec) as (T1 & T2 & _). auto.
  Qed.
End Tester.

(** The same with the constants of the code. *)
Theorem C68_source_test pol data start size k D b byt p rs extra :
  stk_den pol data start size k D EEof b byt p false -> rs_of data rs -> stk_flag pol (rs_separate rs) -> rs_good rs ->
  exists B, forall fuel, (B <= fuel)%nat ->
    let v := source_test k fuel (stk_new k rs start size) (D ++ extra) in
    (v = TPass \/ v = TNoCheckpoint \/ v = TTooMany /\ 33816705 <= zlen D) /\ (zlen D <= 262144 -> v = TNoCheckpoint).
Proof.
  intros Hden H1 H2 H3. unfold source_test.
  assert (P1 : (0 < 32 * 1024)%nat) by (apply Nat.ltb_lt; vm_compute; reflexivity).
  assert (P2 : (0 < 16 * 1024)%nat) by (apply Nat.ltb_lt; vm_compute; reflexivity).
  exact (C68_tester_correct_source pol data start size k D EEof b byt p Hden rs (32 * 1024) (16 * 1024) (256 * 1024) 128 extra H1 H2 H3 eq_refl P1 P2 ltac:(discriminate)).
Qed.

(** ** Non-vacuity, and what the tester does not notice *)
Definition re_st0 := s_setssc (stk_source (ex_stk false false)) (stk_new (ex_stk false false) (ex_rs ex_in) 0 8).
Definition re_st1 := fst (s_resume (stk_source (ex_stk false false)) re_st0 None).
Lemma re_life : life false ex_in 0 8 (ex_stk false false) true (ex_rs ex_in) re_st0 false.
Proof. apply LifeNew; [reflexivity|discriminate]. Qed.
Definition re_ops := [CRead 1; CWant; CRead 3; CRead 3; CWant; CRead 3; CRead 3; CRead 3].
Definition re_run (dec : relog (ex_stk false false) -> bool) := retrace (ex_stk false false) dec re_st1 [] re_ops.
Example C67_example : snd (s_resume (stk_source (ex_stk false false)) re_st0 None) = Ok 0 /\ Forall reop_ok re_ops.
Proof. split; [vm_compute; reflexivity|]. unfold re_ops. repeat constructor; cbn; lia. Qed.
Definition re_seen dec :=
  (tdata (snd (fst (fst (re_run dec)))), map (fun x => (ck_off (fst x), snd x)) (snd (fst (re_run dec))), snd (re_run dec)).
(** resuming at each checkpoint, and never *)
Example C67_example_run : re_seen (fun _ => true) = (ex_out, [(4, Some (Ok 4))], false) /\ fst (fst (re_seen (fun _ => false))) = ex_out.
Proof. split; vm_compute; reflexivity. Qed.

Definition re_test (ref : bytes) := run_source_test (ex_stk false false) 3 2 1 128 100 (stk_new (ex_stk false false) (ex_rs ex_in) 0 8) ref.
Example C68_example : re_test ex_out = TPass.
Proof. vm_compute. reflexivity. Qed.
(** other data than the reference is found out *)
Example C68_example_mismatch : re_test (s2b "aabbxx") = TMismatch /\ re_test (s2b "aabb") = TMismatch.
Proof. split; vm_compute; reflexivity. Qed.
(** C68, refuted: a source that ends early -- here one that lacks the last half of the
    reference -- passes the test. *)
Theorem C68_truncation_unnoticed_refuted :
  stk_den false ex_in 0 8 (ex_stk false false) ex_out EEof 36 true true false /\
  re_test (ex_out ++ s2b " and more") = TPass.
Proof. split; [exact (ex_den false false)|vm_compute; reflexivity]. Qed.
(** A decompressor that signals block boundaries together with data is a correct
    source, too, but the tester, which moves its output back from within Save,
    calls it wrong: the hypothesis [late = false] of C68 is needed. *)
Theorem C68_needs_lazy_saves :
  stk_den false ex_in 0 8 (ex_stk false true) ex_out EEof 36 true true true /\
  run_source_test (ex_stk false true) 3 2 1 128 100 (stk_new (ex_stk false true) (ex_rs ex_in) 0 8) ex_out = TMismatch.
Proof. split; [exact (ex_den false true)|vm_compute; reflexivity]. Qed.
