(** SeekTrace_proofs.v -- histories of seek sources. *)
From Verif Require Import Base Base_proofs Source Seek Decomp CodecSpec Contract Seek_proofs Drive Stack_proofs.

Section SeekTrace.
  Context (data : bytes) (start size : Z) (pol : bool).
  Hypothesis Hsize : 0 <= size.

  Notation D := (seek_data data start size).
  Notation sat := (seek_at data start size pol).

  Lemma seek_trace_full : forall ops s o m s' evs bad,
    sat s o m -> trace seek_source s ops = (s', evs, bad) ->
    bad = false /\
    tr_ok D EEof (~ seek_clean s) false o evs /\
    (exists m', sat s' (o + length (tdata evs)) m') /\
    map te_op evs = ops /\
    ss_ssc s' = ss_ssc s /\
    (ss_ssc s = true -> map te_cks evs = expect_cks (Z.to_nat size) o (ss_want s) evs) /\
    (ss_ssc s = false -> forall ev, In ev evs -> te_cks ev = []) /\
    (seek_clean s -> seek_clean s') /\
    (forall ev, In ev evs -> te_err ev = None \/ te_err ev = Some EEof \/ te_err ev = Some EIO) /\
    (forall ev n, In ev evs -> te_op ev = CRead (Datatypes.S n) -> te_err ev = None -> te_data ev <> []) /\
    (forall ev, In ev evs -> te_op ev = CRead 0 -> te_err ev = None /\ te_data ev = []).
  Proof.
    induction ops as [|op ops IH]; intros s o m s' evs bad Hat.
    - injection 1 as <- <- <-. cbn [tdata map concat length tr_ok expect_cks]. rewrite Nat.add_0_r.
      splits; eauto; cbn [In]; tauto.
    - cbn [trace].
      pose proof Hat as (_ & _ & Hol & _).
      assert (Hstep : forall op1 s1 d e cks evs1 bad1,
        trace seek_source s1 ops = (s', evs1, bad1) ->
        (exists m1, sat s1 (o + length d) m1) ->
        d = slice D o (length d) -> (o + length d <= length D)%nat ->
        (forall n, op1 = CRead n -> (length d <= n)%nat) -> (op1 = CReadByte -> e = None -> length d = 1%nat) ->
        (forall x, e = Some x -> x = EEof /\ (o + length d)%nat = length D \/ x = EIO /\ ~ seek_clean s) ->
        (forall n, op1 = CRead (Datatypes.S n) -> e = None -> d <> []) ->
        (op1 = CRead 0 -> e = None /\ d = []) ->
        (seek_clean s -> seek_clean s1) -> ss_ssc s1 = ss_ssc s ->
        (forall c, In c cks -> op1 <> CWant /\ ck_off c = Z.of_nat o /\ (o <= length D)%nat) ->
        (ss_ssc s = false -> cks = []) ->
        (ss_ssc s = true -> forall evs0, cks :: expect_cks (Z.to_nat size) (o + length d) (ss_want s1) evs0 =
            expect_cks (Z.to_nat size) o (ss_want s) (MkTev op1 d e cks :: evs0)) ->
        bad1 = false /\
        tr_ok D EEof (~ seek_clean s) false o (MkTev op1 d e cks :: evs1) /\
        (exists m', sat s' (o + length (tdata (MkTev op1 d e cks :: evs1))) m') /\
        map te_op (MkTev op1 d e cks :: evs1) = op1 :: ops /\
        ss_ssc s' = ss_ssc s /\
        (ss_ssc s = true -> map te_cks (MkTev op1 d e cks :: evs1) = expect_cks (Z.to_nat size) o (ss_want s) (MkTev op1 d e cks :: evs1)) /\
        (ss_ssc s = false -> forall ev, In ev (MkTev op1 d e cks :: evs1) -> te_cks ev = []) /\
        (seek_clean s -> seek_clean s') /\
        (forall ev, In ev (MkTev op1 d e cks :: evs1) -> te_err ev = None \/ te_err ev = Some EEof \/ te_err ev = Some EIO) /\
        (forall ev n, In ev (MkTev op1 d e cks :: evs1) -> te_op ev = CRead (Datatypes.S n) -> te_err ev = None -> te_data ev <> []) /\
        (forall ev, In ev (MkTev op1 d e cks :: evs1) -> te_op ev = CRead 0 -> te_err ev = None /\ te_data ev = [])).
      { intros op1 s1 d e cks evs1 bad1 Ht (m1 & Hs1) Hd Hl Hr1 Hr2 He Hne Hz Hcl Hssc Hck Hck0 Hexp.
        destruct (IH s1 _ m1 s' evs1 bad1 Hs1 Ht) as (-> & I1 & (m' & I2) & I3 & I4 & I5 & I6 & I7 & I8 & I9 & I10).
        split; [reflexivity|]. split.
        { cbn [tr_ok te_op te_data te_err te_cks]. splits; auto.
          - intros x Hx. destruct (He x Hx) as [[-> Hx2]|[-> Hx2]]; [left; auto|right; splits; auto; discriminate].
          - intros c Hc. destruct (Hck c Hc) as (H1 & H2 & H3). unfold zlen. rewrite H2. split; [lia|].
            destruct op1; [left; reflexivity|lia|congruence].
          - eapply tr_ok_weaken; [|exact I1]. tauto. }
        split; [exists m'; rewrite tdata_cons, app_length; cbn [te_data]; rewrite Nat.add_assoc; exact I2|].
        split; [cbn [map te_op]; f_equal; exact I3|].
        split; [congruence|]. split.
        { intros Hs. cbn [map te_cks]. rewrite <- (Hexp Hs). apply f_equal. apply I5. rewrite Hssc. exact Hs. }
        split; [intros Hs ev [<- | Hi]; [exact (Hck0 Hs)|exact (I6 (eq_trans Hssc Hs) ev Hi)]|].
        split; [auto|]. split.
        { intros ev [<- | Hi]; [|auto]. cbn. destruct e as [x|]; [|auto]. destruct (He x eq_refl) as [[-> _]|[-> _]]; auto. }
        split; [intros ev n [<- | Hi]; [apply Hne|eauto]|intros ev [<- | Hi]; [exact Hz|eauto]]. }
      destruct op as [n| |].
      + destruct n as [|n].
        * (* empty buffer *)
          pose proof Hat as (_ & _ & _ & _ & b & Hb & _).
          destruct (s_read seek_source rec_cb s [] 0) as [[s1 cks] r] eqn:Hr.
          change (seek_read (K:=list (sckpt unit)) rec_cb s [] 0 = (s1, cks, r)) in Hr. unfold seek_read in Hr. rewrite Hb in Hr.
          cbn [Nat.eqb] in Hr. injection Hr as <- <- <-.
          destruct (trace seek_source s ops) as [[s2 evs1] bad1] eqn:Ht. injection 1 as <- <- <-.
          apply (Hstep (CRead 0) s [] None []); auto; cbn [length]; try rewrite Nat.add_0_r; eauto; try discriminate; try tauto; try lia.
          all: try (intros ? []).
        * destruct (s_read seek_source rec_cb s [] (Datatypes.S n)) as [[s1 cks] r] eqn:Hr.
          destruct (seek_read_full data start size pol Hsize _ rec_cb s [] (Datatypes.S n) o m s1 cks r Hat ltac:(lia) Hr)
            as (cevs & C1 & C2 & C3 & C4 & C5 & C6).
          destruct (rec_calls _ _ _ C1) as [Hcks Hok]. cbn in Hcks. subst cks.
          destruct r as [d e| |].
          2:{ destruct C6 as (c & Hi). specialize (Hok _ _ Hi). discriminate. }
          2:{ destruct C6. }
          destruct C6 as (F1 & F2 & F3 & F4 & F5 & F6 & F7).
          destruct (trace seek_source s1 ops) as [[s2 evs1] bad1] eqn:Ht. injection 1 as <- <- <-.
          apply (Hstep (CRead (Datatypes.S n)) s1 d e (map fst cevs) evs1 bad1 Ht); auto; try discriminate.
          -- eauto.
          -- exact (proj1 (proj2 (proj2 F3))).
          -- intros n0 [= <-]. exact F1.
          -- intros x Hx. destruct (F7 x Hx) as [(H1 & H2 & _)|H]; [left; auto|right; exact H].
          -- destruct C2 as [-> | (rr & -> & H1 & H2 & H3)]; [intros c []|]. cbn. intros c [<- | []]. splits; [discriminate|reflexivity|exact Hol].
          -- intros Hs. destruct C2 as [-> | (rr & -> & H1 & H2 & H3)]; [reflexivity|congruence].
          -- intros Hs evs0. cbn [expect_cks te_op te_data]. rewrite C4.
             destruct (o <? Z.to_nat size)%nat eqn:Hlt.
             ++ f_equal. destruct C2 as [-> | (rr & -> & H1 & H2 & H3)].
                ** destruct (ss_want s) eqn:Hw; [|reflexivity]. exfalso. apply C3; auto. lia.
                ** rewrite H1. reflexivity.
             ++ f_equal. destruct C2 as [-> | (rr & -> & H1 & H2 & H3)]; [reflexivity|lia].
      + destruct (s_readbyte seek_source rec_cb s []) as [[s1 cks] r] eqn:Hr.
        destruct (seek_readbyte_full data start size pol Hsize _ rec_cb s [] o m s1 cks r Hat Hr)
          as (cevs & C1 & C2 & C3 & C4 & C5 & C6).
        destruct (rec_calls _ _ _ C1) as [Hcks Hok]. cbn in Hcks. subst cks.
        assert (Hc1 : forall c, In c (map fst cevs) -> CReadByte <> CWant /\ ck_off c = Z.of_nat o /\ (o <= length D)%nat).
        { destruct C2 as [-> | (rr & -> & H1 & H2 & H3)]; [intros c []|]. cbn. intros c [<- | []]. splits; [discriminate|reflexivity|exact Hol]. }
        assert (Hc2 : ss_ssc s = false -> map fst cevs = []).
        { intros Hs. destruct C2 as [-> | (rr & -> & H1 & H2 & H3)]; [reflexivity|congruence]. }
        assert (Hc3 : forall d e, ss_ssc s = true -> forall evs0, map fst cevs :: expect_cks (Z.to_nat size) (o + length d) (ss_want s1) evs0 =
            expect_cks (Z.to_nat size) o (ss_want s) (MkTev CReadByte d e (map fst cevs) :: evs0)).
        { intros d e Hs evs0. cbn [expect_cks te_op te_data]. rewrite C4.
          destruct (o <? Z.to_nat size)%nat eqn:Hlt.
          - f_equal. destruct C2 as [-> | (rr & -> & H1 & H2 & H3)].
            + destruct (ss_want s) eqn:Hw; [|reflexivity]. exfalso. apply C3; auto. lia.
            + rewrite H1. reflexivity.
          - f_equal. destruct C2 as [-> | (rr & -> & H1 & H2 & H3)]; [reflexivity|lia]. }
        destruct r as [b [x|]| |].
        * destruct C6 as (F1 & F2 & F3 & F4).
          destruct (trace seek_source s1 ops) as [[s2 evs1] bad1] eqn:Ht. injection 1 as <- <- <-.
          apply (Hstep CReadByte s1 [] (Some x) (map fst cevs) evs1 bad1 Ht); auto; cbn [length]; try rewrite Nat.add_0_r; eauto; try discriminate; try lia.
          intros y [= <-]. destruct F4 as [[-> F4]|F4]; [left; auto|right; exact F4].
        * destruct C6 as (F1 & F2 & F3 & F4).
          destruct (trace seek_source s1 ops) as [[s2 evs1] bad1] eqn:Ht. injection 1 as <- <- <-.
          apply (Hstep CReadByte s1 [b] None (map fst cevs) evs1 bad1 Ht); auto; cbn [length]; eauto; try discriminate; try lia.
          { symmetry. apply slice_1. exact F1. }
          { exact (proj1 (proj2 (proj2 F2))). }
        * destruct C6 as (c & Hi). specialize (Hok _ _ Hi). discriminate.
        * destruct C6.
      + change (s_want seek_source s) with (seek_want s).
        destruct (trace seek_source (seek_want s) ops) as [[s2 evs1] bad1] eqn:Ht. injection 1 as <- <- <-.
        apply (Hstep CWant (seek_want s) [] None [] evs1 bad1 Ht); auto; cbn [length]; try rewrite Nat.add_0_r; eauto; try discriminate; try lia.
        intros c [].
  Qed.
End SeekTrace.
