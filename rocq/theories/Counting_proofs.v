(** Counting_proofs.v *)
From Coq Require Import Sorted.
From Verif Require Import Base Base_proofs Source Seek Counting Contract Seek_proofs Drive Stack_proofs SeekTrace_proofs.

Section Transparent.
  Context (X : seeksource).

  Lemma counting_trace : forall ops c c' evs bad,
    trace (counting_source X) c ops = (c', evs, bad) ->
    trace (k_src X) (cs_src X c) ops = (cs_src X c', evs, bad) /\ cs_base X c' = cs_base X c.
  Proof.
    induction ops as [|op ops IH]; intros c c' evs bad.
    - cbn. injection 1 as <- <- <-. auto.
    - cbn [trace]. destruct op as [n| |].
      + destruct (s_read (counting_source X) rec_cb c [] n) as [[c1 cks] r] eqn:Hr.
        change (counting_read X (K := list (sckpt (s_ck (k_src X)))) rec_cb c [] n = (c1, cks, r)) in Hr. unfold counting_read in Hr. cbv zeta in Hr.
        destruct (s_read (k_src X) rec_cb (cs_src X c) [] n) as [[s1 k1] r1] eqn:Hr1.
        destruct r1 as [d e| |].
        * injection Hr as <- <- <-.
          set (c1 := counting_bump X s1 (zlen d) c).
          assert (Hc1 : cs_src X c1 = s1 /\ cs_base X c1 = cs_base X c).
          { unfold c1, counting_bump. destruct (_ >? _); auto. }
          destruct (trace (counting_source X) c1 ops) as [[c2 evs1] bad1] eqn:Ht. injection 1 as <- <- <-.
          destruct (IH _ _ _ _ Ht) as [I1 I2]. destruct Hc1 as [H1 H2]. rewrite H1 in I1.
          rewrite I1. split; [reflexivity|congruence].
        * injection Hr as <- <- <-. injection 1 as <- <- <-. auto.
        * injection Hr as <- <- <-. injection 1 as <- <- <-. auto.
      + destruct (s_readbyte (counting_source X) rec_cb c []) as [[c1 cks] r] eqn:Hr.
        change (counting_readbyte X (K := list (sckpt (s_ck (k_src X)))) rec_cb c [] = (c1, cks, r)) in Hr. unfold counting_readbyte in Hr. cbv zeta in Hr.
        destruct (s_readbyte (k_src X) rec_cb (cs_src X c) []) as [[s1 k1] r1] eqn:Hr1.
        destruct r1 as [b e| |].
        * assert (Hc1 : cs_src X c1 = s1 /\ cs_base X c1 = cs_base X c /\ cks = k1 /\ r = BRet b e).
          { destruct e; injection Hr as <- <- <-; [auto|]. unfold counting_bump. destruct (_ >? _); auto. }
          destruct Hc1 as (H1 & H2 & -> & ->).
          destruct (trace (counting_source X) c1 ops) as [[c2 evs1] bad1] eqn:Ht. injection 1 as <- <- <-.
          destruct (IH _ _ _ _ Ht) as [I1 I2]. rewrite H1 in I1. rewrite I1. split; [reflexivity|congruence].
        * injection Hr as <- <- <-. injection 1 as <- <- <-. auto.
        * injection Hr as <- <- <-. injection 1 as <- <- <-. auto.
      + destruct (trace (counting_source X) (s_want (counting_source X) c) ops) as [[c2 evs1] bad1] eqn:Ht.
        injection 1 as <- <- <-. destruct (IH _ _ _ _ Ht) as [I1 I2]. cbn in I1, I2. rewrite I1. auto.
  Qed.
End Transparent.

Section Log.
  Context (data : bytes) (start size : Z) (pol : bool).
  Hypothesis Hsize : 0 <= size.
  Notation X := seek_seeksource.
  Notation D := (seek_data data start size).
  Notation sat := (seek_at data start size pol).

  Lemma counting_log : forall ops c o m c' evs bad,
    sat (cs_src X c) o m -> 0 <= cs_n X c <= read_byte_threshold ->
    trace (counting_source X) c ops = (c', evs, bad) ->
    cs_log X c' = rev (expect_log read_byte_threshold (cs_base X c) (Z.of_nat o) (cs_n X c) evs) ++ cs_log X c /\
    0 <= cs_n X c' <= read_byte_threshold.
  Proof.
    induction ops as [|op ops IH]; intros c o m c' evs bad Hat Hn.
    - cbn. injection 1 as <- <- <-. auto.
    - intros Htr. pose proof (counting_trace X (op :: ops) c c' evs bad Htr) as [Htr0 _].
      destruct (seek_trace_full data start size pol Hsize _ _ _ _ _ _ _ Hat Htr0) as (_ & Hok & _).
      cbn [trace] in Htr.
      assert (Hstep : forall op1 c1 d e cks evs1 bad1, evs = MkTev op1 d e cks :: evs1 ->
         trace (counting_source X) c1 ops = (c', evs1, bad1) ->
         (exists m1, sat (cs_src X c1) (o + length d) m1) ->
         cs_base X c1 = cs_base X c ->
         (cs_n X c + zlen d > read_byte_threshold -> cs_n X c1 = 0 /\ cs_log X c1 = (cs_base X c + Z.of_nat o + zlen d) :: cs_log X c) ->
         (cs_n X c + zlen d <= read_byte_threshold -> cs_n X c1 = cs_n X c + zlen d /\ cs_log X c1 = cs_log X c) ->
         cs_log X c' = rev (expect_log read_byte_threshold (cs_base X c) (Z.of_nat o) (cs_n X c) evs) ++ cs_log X c /\
         0 <= cs_n X c' <= read_byte_threshold).
      { intros op1 c1 d e cks evs1 bad1 -> Ht (m1 & Hs1) Hb Hgt Hle. cbn [expect_log te_data].
        destruct (cs_n X c + zlen d >? read_byte_threshold) eqn:Hc.
        - destruct (Hgt ltac:(lia)) as [G1 G2].
          destruct (IH c1 _ m1 c' evs1 bad1 Hs1 ltac:(unfold read_byte_threshold in *; lia) Ht) as [I1 I2]. split; [|exact I2].
          rewrite I1, G1, G2, Hb. cbn [rev]. rewrite <- app_assoc. cbn [app]. unfold zlen. rewrite Nat2Z.inj_add. reflexivity.
        - destruct (Hle ltac:(lia)) as [G1 G2].
          destruct (IH c1 _ m1 c' evs1 bad1 Hs1 ltac:(unfold zlen in *; lia) Ht) as [I1 I2]. split; [|exact I2].
          rewrite I1, G1, G2, Hb. unfold zlen. rewrite Nat2Z.inj_add. reflexivity. }
      assert (Hbump : forall s1 (d : bytes) m1, sat s1 (o + length d) m1 ->
         let c1 := counting_bump X s1 (zlen d) c in
         cs_src X c1 = s1 /\ cs_base X c1 = cs_base X c /\
         (cs_n X c + zlen d > read_byte_threshold -> cs_n X c1 = 0 /\ cs_log X c1 = (cs_base X c + Z.of_nat o + zlen d) :: cs_log X c) /\
         (cs_n X c + zlen d <= read_byte_threshold -> cs_n X c1 = cs_n X c + zlen d /\ cs_log X c1 = cs_log X c)).
      { intros s1 d m1 Hs1. cbv zeta. unfold counting_bump.
        assert (Hoff : k_tell X s1 = Z.of_nat o + zlen d).
        { change (k_tell X s1) with (ss_off s1). destruct Hs1 as (_ & -> & _). unfold zlen. lia. }
        change (s_st (k_src X)) with sstate in *. rewrite Hoff. destruct (cs_n X c + zlen d >? read_byte_threshold) eqn:Hc; cbn [cs_src cs_base cs_n cs_log]; splits; auto; try lia.
        intros _. split; [reflexivity|]. f_equal. lia. }
      destruct op as [n| |].
      + destruct (s_read (counting_source X) rec_cb c [] n) as [[c1 cks] r] eqn:Hr.
        change (counting_read X (K := list (sckpt (s_ck (k_src X)))) rec_cb c [] n = (c1, cks, r)) in Hr. unfold counting_read in Hr. cbv zeta in Hr.
        destruct (s_read (k_src X) rec_cb (cs_src X c) [] n) as [[s1 k1] r1] eqn:Hr1.
        assert (H1 : forall d e, r1 = RRet d e -> exists m1, sat s1 (o + length d) m1).
        { intros d e ->. destruct (seek_trace_full data start size pol Hsize [CRead n] _ _ _ s1 [MkTev (CRead n) d e k1] false Hat) as (_ & _ & (m1 & H) & _).
          - cbn [trace]. change (k_src X) with seek_source in Hr1. change (s_read seek_source rec_cb (cs_src X c) [] n = (s1, k1, RRet d e)) in Hr1. rewrite Hr1. reflexivity.
          - exists m1. unfold tdata in H. cbn [map concat te_data] in H. rewrite app_nil_r in H. exact H. }
        destruct r1 as [d e| |].
        * injection Hr as <- <- <-. destruct (H1 d e eq_refl) as (m1 & Hs1).
          destruct (Hbump s1 d m1 Hs1) as (B1 & B2 & B3 & B4).
          destruct (trace (counting_source X) (counting_bump X s1 (zlen d) c) ops) as [[c2 evs1] bad1] eqn:Ht.
          injection Htr as <- <- <-.
          eapply Hstep; [reflexivity|exact Ht|exists m1; rewrite B1; exact Hs1|exact B2|exact B3|exact B4].
        * injection Hr as <- <- <-. injection Htr as <- <- <-. cbn. split; [reflexivity|exact Hn].
        * injection Hr as <- <- <-. injection Htr as <- <- <-. cbn. split; [reflexivity|exact Hn].
      + destruct (s_readbyte (counting_source X) rec_cb c []) as [[c1 cks] r] eqn:Hr.
        change (counting_readbyte X (K := list (sckpt (s_ck (k_src X)))) rec_cb c [] = (c1, cks, r)) in Hr. unfold counting_readbyte in Hr. cbv zeta in Hr.
        destruct (s_readbyte (k_src X) rec_cb (cs_src X c) []) as [[s1 k1] r1] eqn:Hr1.
        assert (H1 : forall b e, r1 = BRet b e -> exists m1, sat s1 (o + length (match e with None => [b] | Some _ => [] end)) m1).
        { intros b e ->. destruct (seek_trace_full data start size pol Hsize [CReadByte] _ _ _ s1 [MkTev CReadByte (match e with None => [b] | Some _ => [] end) e k1] false Hat) as (_ & _ & (m1 & H) & _).
          - cbn [trace]. change (s_readbyte seek_source rec_cb (cs_src X c) [] = (s1, k1, BRet b e)) in Hr1. rewrite Hr1. reflexivity.
          - exists m1. unfold tdata in H. cbn [map concat te_data] in H. rewrite app_nil_r in H. exact H. }
        destruct r1 as [b e| |].
        * destruct (H1 b e eq_refl) as (m1 & Hs1). destruct e as [e|].
          -- injection Hr as <- <- <-.
             destruct (trace (counting_source X) (MkCount X s1 (cs_n X c) (cs_base X c) (cs_log X c)) ops) as [[c2 evs1] bad1] eqn:Ht.
             injection Htr as <- <- <-.
             eapply Hstep; [reflexivity|exact Ht|exists m1; exact Hs1|reflexivity| |]; change (zlen (@nil byte)) with 0; cbn [cs_n cs_log]; [intros; lia|].
             intros _. split; [lia|reflexivity].
          -- injection Hr as <- <- <-. destruct (Hbump s1 [b] m1 Hs1) as (B1 & B2 & B3 & B4).
             change (zlen [b]) with 1 in *.
             destruct (trace (counting_source X) (counting_bump X s1 1 c) ops) as [[c2 evs1] bad1] eqn:Ht.
             injection Htr as <- <- <-.
             eapply Hstep; [reflexivity|exact Ht|exists m1; rewrite B1; exact Hs1|exact B2|exact B3|exact B4].
        * injection Hr as <- <- <-. injection Htr as <- <- <-. cbn. split; [reflexivity|exact Hn].
        * injection Hr as <- <- <-. injection Htr as <- <- <-. cbn. split; [reflexivity|exact Hn].
      + destruct (trace (counting_source X) (s_want (counting_source X) c) ops) as [[c2 evs1] bad1] eqn:Ht.
        injection Htr as <- <- <-.
        eapply Hstep; [reflexivity|exact Ht| |reflexivity| |]; change (zlen (@nil byte)) with 0; cbn [length].
        { exists m. rewrite Nat.add_0_r. exact Hat. }
        { intros; lia. }
        { intros _. cbn. split; [lia|reflexivity]. }
  Qed.
End Log.

Lemma expect_log_in {CK} thr base : forall (evs : list (tev CK)) pos n v, In v (expect_log thr base pos n evs) ->
  exists pre ev post, evs = pre ++ ev :: post /\ v = base + pos + zlen (tdata (pre ++ [ev])).
Proof.
  induction evs as [|ev evs IH]; intros pos n v; cbn [expect_log]; [intros []|].
  assert (Hrec : forall n', In v (expect_log thr base (pos + zlen (te_data ev)) n' evs) ->
     exists pre ev0 post, ev :: evs = pre ++ ev0 :: post /\ v = base + pos + zlen (tdata (pre ++ [ev0]))).
  { intros n' Hi. destruct (IH _ _ _ Hi) as (pre & ev0 & post & -> & ->). exists (ev :: pre), ev0, post.
    split; [reflexivity|]. cbn [app]. rewrite tdata_cons. unfold zlen. rewrite app_length. lia. }
  destruct (_ >? _).
  - intros [<- | Hi]; [|exact (Hrec _ Hi)]. exists [], ev, evs. split; [reflexivity|].
    unfold tdata. cbn. rewrite app_nil_r. lia.
  - intros Hi. exact (Hrec _ Hi).
Qed.

Lemma expect_log_sorted {CK} thr base : forall (evs : list (tev CK)) pos n, Sorted Z.le (expect_log thr base pos n evs) /\
  (forall v, In v (expect_log thr base pos n evs) -> base + pos <= v).
Proof.
  induction evs as [|ev evs IH]; intros pos n; cbn [expect_log]; [split; [constructor|intros ? []]|].
  assert (Hl : 0 <= zlen (te_data ev)) by (unfold zlen; lia).
  destruct (_ >? _).
  - destruct (IH (pos + zlen (te_data ev)) 0) as [I1 I2]. split.
    + constructor; [exact I1|]. destruct (expect_log thr base (pos + zlen (te_data ev)) 0 evs) eqn:E; constructor.
      specialize (I2 z (or_introl eq_refl)). lia.
    + intros v [<- | Hi]; [lia|]. specialize (I2 v Hi). lia.
  - destruct (IH (pos + zlen (te_data ev)) (n + zlen (te_data ev))) as [I1 I2]. split; [exact I1|].
    intros v Hi. specialize (I2 v Hi). lia.
Qed.
