(** Decomp_proofs.v -- the decompressing sources preserve the contract. *)
From Verif Require Import Base Base_proofs Source Decomp Contract CodecSpec.

Lemma crun_mono C itm : forall n n' d inp x, (n <= n')%nat -> crun C n d inp itm = Some x -> crun C n' d inp itm = Some x.
Proof.
  induction n as [|n IH]; intros n' d inp x Hn; [discriminate|].
  destruct n' as [|n']; [lia|]. cbn [crun].
  destruct (cd_step C d) as [k|nn k|b bs d'|d'| |]; auto.
  - destruct inp; auto. apply IH; lia.
  - destruct (nn <=? length inp)%nat; auto. apply IH; lia.
  - destruct (crun C n d' inp itm) as [[o e]|] eqn:E; [|discriminate].
    rewrite (IH n' d' inp _ ltac:(lia) E). auto.
  - apply IH; lia.
Qed.

Lemma eof_map_neq e : (match e with EEof => EUnexpectedEof | x => x end) <> EEof.
Proof. destruct e; discriminate. Qed.

Section DecompLaws.
  Context (C : codec) (cfg : dcfg) (I : source) (fuel0 : nat).
  Context (ID : bytes) (itm : gerr) (LI : laws I ID itm).
  Context (N : nat) (D : bytes) (tm : gerr).
  Hypothesis HB : byte_law LI.
  Hypothesis Hrun : crun C N (cd_init C) ID itm = Some (D, tm).
  Hypothesis HfuelN : (N < fuel0)%nat.
  Hypothesis HfuelI : (lw_bound LI < fuel0)%nat.
  Hypothesis Hsav : saves_ok C.
  Hypothesis Hin : lw_polite LI = true \/ saves_before_end C N (cd_init C) ID.
  Hypothesis Htm : tm <> EReadyToSave.

  Notation onsave := (dcomp_onsave C I).
  Notation src := (dcomp_source C cfg I fuel0).

  Definition Neb : Prop := no_empty_block C N (cd_init C) ID false.

  (** decompressor state [d] with [n] steps and the input from [roff] on left *)
  Definition run_at (n : nat) (d : cd_st C) (roff : nat) (rest : bytes) (fr : bool) : Prop :=
    crun C n d (skipn roff ID) itm = Some (rest, tm) /\
    (lw_polite LI = true \/ saves_before_end C n d (skipn roff ID)) /\
    (Neb -> no_empty_block C n d (skipn roff ID) fr).

  Definition sck_ok (sck : option (sckpt (s_ck I))) (roff : nat) : Prop :=
    exists c, sck = Some c /\ lw_ck LI c /\ ck_off c <= Z.of_nat roff.

  (** a working SaverReader positioned at output byte [o], [n] steps left *)
  Definition sr_run (i : s_st I) (sck : option (sckpt (s_ck I))) (s : srd C) (o n : nat) (fr : bool) : Prop :=
    exists roff mi rest,
      lw_at LI i roff mi /\ sr_roff C s = Z.of_nat roff /\ sr_woff C s = Z.of_nat o /\ (o <= length D)%nat /\
      (n <= N)%nat /\ sr_fail C s = None /\ run_at n (sr_d C s) roff rest fr /\
      skipn o D = sr_pend C s ++ rest /\ (sr_want C s = true -> sck_ok sck roff).

  (** a SaverReader that got an error from the inner source *)
  Definition sr_dead (i : s_st I) (s : srd C) (o : nat) : Prop :=
    exists roff mi e, lw_at LI i roff mi /\ sr_woff C s = Z.of_nat o /\ (o <= length D)%nat /\
      sr_pend C s = [] /\ sr_fail C s = Some e /\ e <> EReadyToSave /\ e <> EEof.

  Definition sr_at (i : s_st I) (sck : option (sckpt (s_ck I))) (s : srd C) (o m : nat) : Prop :=
    (exists n fr, sr_run i sck s o n fr /\ m = (n + (length D - o))%nat) \/
    (sr_dead i s o /\ (m <= N + length D)%nat).

  Definition sr_clean (i : s_st I) (s : srd C) : Prop :=
    lw_clean LI i /\ (forall e, sr_fail C s = Some e -> e = tm /\ sr_woff C s = zlen D).

  Lemma onsave_calls : forall evs sck s k', calls onsave (sck, Some s) evs k' ->
    (forall c rr, In (c, rr) evs -> rr = COk) /\
    ((evs = [] /\ k' = (sck, Some s)) \/
     exists c rr, In (c, rr) evs /\
       k' = (Some c, Some (MkSr C (sr_d C s) (sr_pend C s) (sr_fail C s) true (sr_roff C s) (sr_woff C s)))).
  Proof.
    induction evs as [|[c rr] evs IH]; intros sck s k'; cbn [calls].
    - intros ->. split; [intros ? ? []|]. left. auto.
    - intros (k1 & Hc & Hrest). unfold dcomp_onsave in Hc. cbn in Hc. injection Hc as <- <-.
      destruct (IH _ _ _ Hrest) as [H1 H2]. split.
      { intros c' rr' [H|H]; [injection H as _ <-; reflexivity|exact (H1 _ _ H)]. }
      right. destruct H2 as [[-> ->]|(c' & rr' & Hin' & ->)].
      + exists c, COk. split; [left; reflexivity|reflexivity].
      + exists c', rr'. split; [right; exact Hin'|reflexivity].
  Qed.

  Lemma skipn_cons_nth (l : bytes) o b : nth_error l o = Some b -> skipn o l = b :: skipn (o + 1) l.
  Proof.
    revert l; induction o as [|o IH]; intros [|x l] H; cbn in H; try discriminate.
    - injection H as ->. reflexivity.
    - cbn. rewrite (IH l H). reflexivity.
  Qed.

  Lemma skipn_pend (pend rest : bytes) o n : (o <= length D)%nat -> skipn o D = pend ++ rest ->
    firstn n pend = slice D o (length (firstn n pend)) /\
    skipn (o + length (firstn n pend)) D = skipn n pend ++ rest /\
    (o + length (firstn n pend) <= length D)%nat.
  Proof.
    intros Ho H. pose proof (f_equal (@length _) H) as Hl. rewrite skipn_length, app_length in Hl.
    pose proof (firstn_length n pend) as Hf.
    assert (Hs : skipn o D = firstn n pend ++ (skipn n pend ++ rest)) by (rewrite app_assoc, firstn_skipn; exact H).
    split; [|split; [|lia]].
    - unfold slice. rewrite Hs, firstn_app_exact by reflexivity. reflexivity.
    - rewrite <- skipn_skipn', Hs. apply skipn_app_exact. reflexivity.
  Qed.

  Lemma sr_read_pend fuel i sck s nb i' sck' s' d e b bs :
    sr_pend C s = b :: bs -> (0 < nb)%nat -> sr_read C I fuel0 fuel i sck s nb = (i', sck', s', RRet d e) -> d <> [].
  Proof.
    intros Hp Hnb H ->. destruct nb as [|nb]; [lia|].
    assert (Hx : forall x y z r, (match skipn (S nb) (b :: bs) with
       | _ :: _ => (x, y, z, RRet (firstn (S nb) (b :: bs)) None) | [] => r end) = (i', sck', s', RRet [] e) -> r = (i', sck', s', RRet [] e) ).
    { intros x y z r. destruct (skipn _ _); [auto|]. cbn [firstn]. discriminate. }
    destruct fuel; cbn [sr_read] in H; rewrite Hp in H; apply Hx in H;
      destruct (cd_step C (sr_d C s)); try destruct (cd_eager C); try destruct (cd_eager_save C && sr_want C s); discriminate H.
  Qed.

  (** What holds after a read of the SaverReader that returned [d] and [e]. *)
  Definition sr_post (i i' : s_st I) (sck' : option (sckpt (s_ck I))) (s' : srd C) (o n : nat) (fr : bool)
      (d : bytes) (e : option gerr) : Prop :=
    (e = None -> exists n' fr', sr_run i' sck' s' (o + length d) n' fr' /\ (n' <= n)%nat /\ d <> []) /\
    (e = Some EReadyToSave -> exists n', sr_run i' sck' s' (o + length d) n' true /\ (n' < n)%nat /\
       sr_want C s' = false /\ sr_pend C s' = [] /\ cd_savable C (sr_d C s') = true /\
       (d = [] \/ cd_eager_save C = true) /\ (Neb -> d = [] -> fr = false) /\
       exists roff, sr_roff C s' = Z.of_nat roff /\ sck_ok sck' roff /\
          (lw_polite LI = true \/ (roff < length ID)%nat)) /\
    (forall x, e = Some x -> x <> EReadyToSave ->
       (exists m', sr_at i' sck' s' (o + length d) m' /\ (m' <= n + (length D - o))%nat) /\
       ((o + length d = length D)%nat /\ x = tm /\ (cd_eager C = false -> d = [])
        \/ ~ lw_clean LI i /\ x <> EEof /\ d = [])).

  Lemma sr_post_weaken i i1 i' sck' s' o n n1 fr fr1 d e :
    sr_post i1 i' sck' s' o n1 fr1 d e -> (lw_clean LI i -> lw_clean LI i1) -> (n1 <= n)%nat ->
    (e = Some EReadyToSave -> Neb -> d = [] -> fr1 = false -> fr = false) -> sr_post i i' sck' s' o n fr d e.
  Proof.
    intros (H1 & H2 & H3) Hc Hn Hfr. split; [|split].
    - intros He. destruct (H1 He) as (n' & fr' & T1 & T2 & T3). exists n', fr'. splits; auto. lia.
    - intros He. destruct (H2 He) as (n' & T1 & T2 & T3 & T4 & T5 & T6 & T7 & T8). exists n'. splits; auto. lia.
    - intros x He Hx. destruct (H3 x He Hx) as ((m' & T1 & T2) & T3). split; [exists m'; split; [exact T1|lia]|].
      destruct T3 as [T3|(T3 & T4)]; [left; exact T3|right; split; [tauto|exact T4]].
  Qed.

  Definition sr_res (i : s_st I) (s : srd C) (nb o n : nat) (fr : bool)
     (i' : s_st I) (sck' : option (sckpt (s_ck I))) (s' : srd C) (r : rres) : Prop :=
    exists d e, r = RRet d e /\ (length d <= nb)%nat /\ d = slice D o (length d) /\
      (lw_quiet LI i -> sr_want C s = false -> lw_quiet LI i' /\ sr_want C s' = false /\ e <> Some EReadyToSave) /\
      (lw_clean LI i -> sr_clean i' s') /\ sr_post i i' sck' s' o n fr d e.

  (** the read ends with the decompressor's own verdict *)
  Lemma sr_res_end i sck s nb o n fr x s' d rest :
    sr_run i sck s' (o + length d) n fr -> (length d <= nb)%nat -> d = slice D o (length d) ->
    sr_pend C s' = [] -> rest = @nil byte -> skipn (o + length d) D = rest ->
    sr_want C s' = sr_want C s -> x = tm -> (cd_eager C = false -> d = []) ->
    sr_res i s nb o n fr i sck s' (RRet d (Some x)).
  Proof.
    intros Hrn Hd1 Hd2 Hp -> Hsk Hw -> Hea.
    assert (Hlen : (o + length d = length D)%nat).
    { apply (f_equal (@length _)) in Hsk. rewrite skipn_length in Hsk. cbn in Hsk.
      destruct Hrn as (? & ? & ? & _ & _ & _ & H & _). lia. }
    exists d, (Some tm). splits; auto.
    - intros Hq Hw0. splits; auto; [congruence|intros [= H]; exact (Htm H)].
    - intros Hc. split; [exact Hc|]. destruct Hrn as (? & ? & ? & _ & _ & _ & _ & _ & Hf & _). intros y Hy. congruence.
    - split; [discriminate|]. split; [intros [= H]; exfalso; exact (Htm H)|].
      intros y [= <-] _. split; [|left; auto].
      exists (n + (length D - (o + length d)))%nat. split; [|lia]. left. exists n, fr. auto.
  Qed.

  Lemma sr_read_run : forall fuel i sck s nb o n fr i' sck' s' r,
    sr_run i sck s o n fr -> (n < fuel)%nat -> (0 < nb)%nat ->
    sr_read C I fuel0 fuel i sck s nb = (i', sck', s', r) ->
    sr_res i s nb o n fr i' sck' s' r.
  Proof.
    induction fuel as [|f IH]; intros i sck s nb o n fr i' sck' s' r
      (roff & mi & rest & Hat & Hro & Hwo & Ho & HnN & Hfail & (Hrunat & Hpol & Hneb) & Hdata & Hsck) Hn Hnb; [lia|].
    cbn [sr_read]. destruct s as [d pend fail want ro wo].
    cbn [sr_d sr_pend sr_fail sr_want sr_roff sr_woff] in *. subst fail ro wo.
    destruct pend as [|p0 pend0].
    - (* nothing pending: run a step *)
      destruct n as [|n]; [discriminate Hrunat|].
      assert (Hself : sr_run i sck (MkSr C d [] None want (Z.of_nat roff) (Z.of_nat o)) o (Datatypes.S n) fr).
      { exists roff, mi, rest. cbn [sr_d sr_pend sr_fail sr_want sr_roff sr_woff]. splits; auto. unfold run_at. auto. }
      cbn [crun saves_before_end no_empty_block] in Hrunat, Hpol, Hneb.
      destruct (cd_step C d) as [kk|nn kk|b bs d'|d'| |] eqn:Hstep.
      + (* Pull *)
        destruct (s_readbyte I onsave i (sck, Some _)) as [[i1 k1] br] eqn:Hrb.
        destruct (HB _ onsave i _ roff mi i1 k1 br Hat Hrb) as (evs & Hcalls & Hgen & Hbr).
        destruct (onsave_calls _ _ _ _ Hcalls) as [HevOk Hk1].
        set (s0 := MkSr C d [] None want (Z.of_nat roff) (Z.of_nat o)) in *.
        assert (Hk1' : exists sck1 want1, k1 = (sck1, Some (MkSr C d [] None want1 (Z.of_nat roff) (Z.of_nat o)))
            /\ (lw_quiet LI i -> sck1 = sck /\ want1 = want)
            /\ forall b', br = BRet b' None -> (want1 = true -> sck_ok sck1 (roff + 1))).
        { destruct Hk1 as [[-> ->]|(c & rr & Hinc & ->)].
          - exists sck, want. split; [reflexivity|]. split; [auto|].
            intros b' _ Hw. destruct (Hsck Hw) as (c & -> & Hc1 & Hc2). exists c. split; [reflexivity|]. split; [assumption|lia].
          - exists (Some c), true. split; [reflexivity|]. split.
            + intros Hq. destruct (Hgen _ _ Hinc). tauto.
            + intros b' -> _. destruct (Hgen _ _ Hinc) as [_ Hck].
              destruct Hbr as (_ & _ & _ & _ & Hoffs). destruct (Hoffs _ _ Hinc) as [_ Hoff].
              exists c. split; [reflexivity|]. split; [exact Hck|lia]. }
        destruct Hk1' as (sck1 & want1 & -> & Hqk & Hsck1).
        destruct br as [b [e|]| |].
        * (* error from the inner source *)
          injection 1 as <- <- <- <-.
          destruct Hbr as (_ & Hbq & Hbc & [((mi' & Hat' & Hmi') & Hcases)|((c & Hc) & _)]);
            [|specialize (HevOk _ _ Hc); discriminate].
          set (e' := match e with EEof => EUnexpectedEof | _ => e end).
          assert (Hne : e <> EReadyToSave).
          { destruct Hcases as [[_ ->]|(_ & _ & H)]; [|exact H]. exact (lw_tm _ _ _ LI). }
          assert (He1 : e' <> EEof) by (unfold e'; clear; destruct e; congruence).
          assert (He2 : e' <> EReadyToSave) by (unfold e'; clear -Hne; destruct e; congruence).
          assert (Hend : roff = length ID /\ e = itm -> e' = tm /\ o = length D).
          { intros [-> ->]. rewrite skipn_all2 in Hrunat by lia. injection Hrunat as Hr1 Hr2. subst rest.
            split; [unfold e'; rewrite <- Hr2; reflexivity|].
            cbn in Hdata. apply (f_equal (@length _)) in Hdata. rewrite skipn_length in Hdata. cbn in Hdata. lia. }
          exists [], (Some e'). unfold sr_post. cbn [length]. rewrite !Nat.add_0_r.
          split; [reflexivity|]. split; [lia|]. split; [reflexivity|]. split.
          { intros Hq Hw. destruct (Hqk Hq) as [_ ->]. split; [auto|]. split; [exact Hw|]. congruence. }
          split.
          { intros Hcl. split; [auto|]. cbn. intros x [= <-].
            destruct Hcases as [Hc|(Hc & _)]; [|tauto]. destruct (Hend Hc) as [-> ->]. auto. }
          split; [discriminate|]. split; [congruence|]. intros x [= <-] _.
          assert (Hdead : sr_dead i1 (MkSr C d [] (Some e') want1 (Z.of_nat roff) (Z.of_nat o)) o).
          { exists roff, mi', e'. cbn. splits; auto. }
          split; [exists 0%nat; split; [right; split; [exact Hdead|lia]|lia]|].
          destruct Hcases as [Hc|(Hc & _)]; [left; destruct (Hend Hc); auto|right; auto].
        * (* a byte *)
          destruct Hbr as (Hnth & (mi' & Hat' & Hmi') & Hbq & Hbc & _).
          intros Hrec.
          rewrite (skipn_cons_nth _ _ _ Hnth) in Hrunat, Hpol, Hneb.
          destruct (IH i1 sck1 (MkSr C (kk b) [] None want1 (Z.of_nat roff + 1) (Z.of_nat o)) nb o n fr i' sck' s' r) as
            (dd & ee & R1 & R2 & R3 & R4 & R5 & R6); [|lia|exact Hnb|exact Hrec|].
          { exists (roff + 1)%nat, mi', rest. cbn [sr_d sr_pend sr_fail sr_want sr_roff sr_woff]. splits; auto; try lia.
            - unfold run_at. auto.
            - exact (Hsck1 b eq_refl). }
          exists dd, ee. splits; auto.
          { intros Hq Hw. destruct (Hqk Hq) as [_ ->]. apply R4; auto. }
          refine (sr_post_weaken _ _ _ _ _ _ _ _ _ _ _ _ R6 Hbc _ _); [lia|auto].
        * destruct Hbr as (c & Hc). specialize (HevOk _ _ Hc). discriminate.
        * destruct Hbr.
      + (* PullN *)
        destruct (read_full I onsave fuel0 i (sck, Some _) nn) as [[i1 k1] br] eqn:Hrb.
        pose proof (proj2 (lw_at_len _ _ _ LI _ _ _ Hat)) as Hmb.
        destruct (read_full_laws LI _ onsave fuel0 nn i _ roff mi i1 k1 br Hat ltac:(lia) Hrb) as (evs & Hcalls & Hgen & Hbr).
        destruct (onsave_calls _ _ _ _ Hcalls) as [HevOk Hk1].
        assert (Hk1' : exists sck1 want1, k1 = (sck1, Some (MkSr C d [] None want1 (Z.of_nat roff) (Z.of_nat o)))
            /\ (lw_quiet LI i -> sck1 = sck /\ want1 = want)
            /\ forall b' e', br = Ok (b', e') -> (want1 = true -> sck_ok sck1 (roff + length b'))).
        { destruct Hk1 as [[-> ->]|(c & rr & Hinc & ->)].
          - exists sck, want. split; [reflexivity|]. split; [auto|].
            intros b' e' _ Hw. destruct (Hsck Hw) as (c & -> & Hc1 & Hc2). exists c. split; [reflexivity|]. split; [assumption|lia].
          - exists (Some c), true. split; [reflexivity|]. split.
            + intros Hq. destruct (Hgen _ _ Hinc). tauto.
            + intros b' e' -> _. destruct (Hgen _ _ Hinc) as [_ Hck].
              destruct Hbr as (_ & _ & _ & _ & _ & Hoffs & _). destruct (Hoffs _ _ Hinc) as [_ Hoff].
              exists c. split; [reflexivity|]. split; [exact Hck|lia]. }
        destruct Hk1' as (sck1 & want1 & -> & Hqk & Hsck1).
        destruct br as [[b [e|]]|e| |]; [| |destruct Hbr| |destruct Hbr].
        * (* error from the inner source *)
          injection 1 as <- <- <- <-. cbn [sr_d sr_want sr_roff sr_woff].
          destruct Hbr as (_ & Hbn & (mi' & Hat' & Hmi') & Hbq & Hbc & _ & Hbl & Hcases).
          assert (Hcases' : (roff + length b = length ID)%nat /\ e = itm \/ ~ lw_clean LI i /\ e <> EEof /\ e <> EReadyToSave).
          { destruct Hcases as [H|[(c & Hc)|H]]; [left; exact H| |right; exact H]. specialize (HevOk _ _ Hc). discriminate. }
          clear Hcases. rename Hcases' into Hcases.
          set (e' := match e with EEof => EUnexpectedEof | _ => e end).
          assert (Hne : e <> EReadyToSave).
          { destruct Hcases as [[_ ->]|(_ & _ & H)]; [|exact H]. exact (lw_tm _ _ _ LI). }
          assert (He1 : e' <> EEof) by (unfold e'; clear; destruct e; congruence).
          assert (He2 : e' <> EReadyToSave) by (unfold e'; clear -Hne; destruct e; congruence).
          assert (Hend : (roff + length b = length ID)%nat /\ e = itm -> e' = tm /\ o = length D).
          { intros [Hl ->].
            assert (Hs : (nn <=? length (skipn roff ID))%nat = false) by (apply Nat.leb_gt; rewrite skipn_length; lia).
            rewrite Hs in Hrunat. injection Hrunat as Hr1 Hr2. subst rest.
            split; [unfold e'; rewrite <- Hr2; reflexivity|].
            cbn in Hdata. apply (f_equal (@length _)) in Hdata. rewrite skipn_length in Hdata. cbn in Hdata. lia. }
          exists [], (Some e'). unfold sr_post. cbn [length]. rewrite !Nat.add_0_r.
          split; [reflexivity|]. split; [lia|]. split; [reflexivity|]. split.
          { intros Hq Hw. destruct (Hqk Hq) as [_ ->]. split; [auto|]. split; [exact Hw|]. congruence. }
          split.
          { intros Hcl. split; [auto|]. cbn. intros x [= <-].
            destruct Hcases as [Hc|(Hc & _)]; [|tauto]. destruct (Hend Hc) as [-> ->]. auto. }
          split; [discriminate|]. split; [congruence|]. intros x [= <-] _.
          assert (Hdead : sr_dead i1 (MkSr C d [] (Some e') want1 (Z.of_nat roff + zlen b) (Z.of_nat o)) o).
          { exists (roff + length b)%nat, mi', e'. cbn. splits; auto. }
          split; [exists 0%nat; split; [right; split; [exact Hdead|lia]|lia]|].
          destruct Hcases as [Hc|(Hc & _)]; [left; destruct (Hend Hc); auto|right; auto].
        * (* the bytes *)
          destruct Hbr as (Hsl & _ & (mi' & Hat' & Hmi') & Hbq & Hbc & _ & Hbn).
          intros Hrec. cbn [sr_want sr_roff sr_woff] in Hrec.
          pose proof (proj1 (lw_at_len _ _ _ LI _ _ _ Hat')) as Hrl.
          assert (Hs : (nn <=? length (skipn roff ID))%nat = true) by (apply Nat.leb_le; rewrite skipn_length; lia).
          rewrite Hs in Hrunat, Hpol, Hneb.
          assert (Hb : firstn nn (skipn roff ID) = b) by (rewrite Hsl, Hbn; reflexivity).
          rewrite Hb, skipn_skipn', <- Hbn in Hrunat, Hpol, Hneb.
          destruct (IH i1 sck1 (MkSr C (kk b) [] None want1 (Z.of_nat roff + zlen b) (Z.of_nat o)) nb o n fr i' sck' s' r) as
            (dd & ee & R1 & R2 & R3 & R4 & R5 & R6); [|lia|exact Hnb|exact Hrec|].
          { exists (roff + length b)%nat, mi', rest. cbn [sr_d sr_pend sr_fail sr_want sr_roff sr_woff]. splits; auto; try (unfold zlen; lia).
            - unfold run_at. auto.
            - exact (Hsck1 b None eq_refl). }
          exists dd, ee. splits; auto.
          { intros Hq Hw. destruct (Hqk Hq) as [_ ->]. apply R4; auto. }
          refine (sr_post_weaken _ _ _ _ _ _ _ _ _ _ _ _ R6 Hbc _ _); [lia|auto].
        * destruct Hbr as (c & Hc). specialize (HevOk _ _ Hc). discriminate.
      + (* Emit *)
        destruct (crun C n d' (skipn roff ID) itm) as [[oo ee]|] eqn:Hcr; [|discriminate].
        injection Hrunat as Hr1 Hr2. subst rest ee. intros Hrec.
        destruct (IH i sck (MkSr C d' (b :: bs) None want (Z.of_nat roff) (Z.of_nat o)) nb o n false i' sck' s' r) as
          (dd & e2 & R1 & R2 & R3 & R4 & R5 & R6); [|lia|exact Hnb|exact Hrec|].
        { exists roff, mi, oo. cbn [sr_d sr_pend sr_fail sr_want sr_roff sr_woff]. splits; auto; try lia. unfold run_at. auto. }
        exists dd, e2. splits; auto.
        refine (sr_post_weaken _ _ _ _ _ _ _ _ _ _ _ _ R6 (fun H => H) _ _); [lia|].
        intros -> _ -> _. subst r. eapply sr_read_pend in Hrec; [|reflexivity|exact Hnb]. congruence.
      + (* Boundary *)
        destruct want.
        * injection 1 as <- <- <- <-. exists [], (Some EReadyToSave). unfold sr_post. cbn [length]. rewrite !Nat.add_0_r.
          split; [reflexivity|]. split; [lia|]. split; [reflexivity|]. split; [intros _ Hw; discriminate Hw|].
          split; [intros Hc; split; [exact Hc|cbn; congruence]|].
          split; [discriminate|]. split; [|congruence]. intros _.
          exists n. split.
          { exists roff, mi, rest. cbn [sr_d sr_pend sr_fail sr_want sr_roff sr_woff]. splits; auto; try lia; try discriminate. unfold run_at. splits; tauto. }
          split; [lia|]. split; [reflexivity|]. split; [reflexivity|]. split; [exact (Hsav _ _ Hstep)|].
          split; [auto|]. split; [intros HN _; apply (Hneb HN)|].
          exists roff. split; [reflexivity|]. split; [auto|].
          destruct Hpol as [Hpol|[Hpol _]]; [left; exact Hpol|right].
          destruct (Nat.lt_ge_cases roff (length ID)) as [Hlt|Hge]; [exact Hlt|].
          exfalso. apply Hpol. apply skipn_all2. lia.
        * intros Hrec.
          destruct (IH i sck (MkSr C d' [] None false (Z.of_nat roff) (Z.of_nat o)) nb o n true i' sck' s' r) as
            (dd & e2 & R1 & R2 & R3 & R4 & R5 & R6); [|lia|exact Hnb|exact Hrec|].
          { exists roff, mi, rest. cbn [sr_d sr_pend sr_fail sr_want sr_roff sr_woff]. splits; auto; try lia; try discriminate. unfold run_at. splits; tauto. }
          exists dd, e2. splits; auto.
          refine (sr_post_weaken _ _ _ _ _ _ _ _ _ _ _ _ R6 (fun H => H) _ _); [lia|].
          intros _ HN _ _. apply (Hneb HN).
      + (* Finish *)
        injection Hrunat as Hr1 Htm0. subst rest. injection 1 as <- <- <- <-.
        refine (sr_res_end _ _ _ _ _ _ _ _ _ [] [] _ _ _ _ _ _ _ _ _); cbn [length]; rewrite ?Nat.add_0_r; auto; try lia.
      + (* Corrupt *)
        injection Hrunat as Hr1 Htm0. subst rest. injection 1 as <- <- <- <-.
        refine (sr_res_end _ _ _ _ _ _ _ _ _ [] [] _ _ _ _ _ _ _ _ _); cbn [length]; rewrite ?Nat.add_0_r; auto; try lia.
    - (* output pending *)
      set (pend := p0 :: pend0) in *.
      destruct (skipn_pend pend rest o nb Ho Hdata) as (P1 & P2 & P3).
      assert (Hdne : firstn nb pend <> []) by (unfold pend; destruct nb; [lia|cbn; discriminate]).
      assert (Hdl : (length (firstn nb pend) <= nb)%nat) by apply firstn_le_length.
      assert (Hplain : sr_run i sck (MkSr C d (skipn nb pend) None want (Z.of_nat roff) (Z.of_nat o + zlen (firstn nb pend)))
                        (o + length (firstn nb pend)) n fr).
      { exists roff, mi, rest. cbn [sr_d sr_pend sr_fail sr_want sr_roff sr_woff]. splits; auto; try (unfold zlen; lia). unfold run_at. auto. }
      assert (Hplain2 : (i, sck, MkSr C d (skipn nb pend) None want (Z.of_nat roff) (Z.of_nat o + zlen (firstn nb pend)), RRet (firstn nb pend) None) = (i', sck', s', r) ->
        sr_res i (MkSr C d pend None want (Z.of_nat roff) (Z.of_nat o)) nb o n fr i' sck' s' r).
      { injection 1 as <- <- <- <-. exists (firstn nb pend), None. splits; auto.
        - cbn. intros Hq Hw. splits; auto. discriminate.
        - intros Hc. split; [exact Hc|cbn; congruence].
        - split; [|split; [discriminate|discriminate]]. intros _. exists n, fr. auto. }
      destruct (skipn nb pend) as [|q0 q] eqn:Hskip; [|exact Hplain2].
      destruct n as [|n]; [discriminate Hrunat|].
      cbn [crun saves_before_end no_empty_block] in Hrunat, Hpol, Hneb.
      destruct (cd_step C d) as [kk|nn kk|b bs d'|d'| |] eqn:Hstep; try exact Hplain2.
      + (* Boundary *)
        destruct (cd_eager_save C) eqn:Hes; [|exact Hplain2].
        destruct want; [|exact Hplain2]. cbn [andb].
        injection 1 as <- <- <- <-. exists (firstn nb pend), (Some EReadyToSave).
        split; [reflexivity|]. split; [exact Hdl|]. split; [exact P1|].
        split; [intros _ Hw; discriminate Hw|].
        split; [intros Hc; split; [exact Hc|cbn; congruence]|].
        split; [discriminate|]. split; [|congruence]. intros _.
        exists n. split.
        { exists roff, mi, rest. cbn [sr_d sr_pend sr_fail sr_want sr_roff sr_woff]. splits; auto; try (unfold zlen; lia); try discriminate. unfold run_at. splits; tauto. }
        split; [lia|]. split; [reflexivity|]. split; [reflexivity|]. split; [exact (Hsav _ _ Hstep)|].
        split; [auto|]. split; [intros HN Hx; tauto|].
        exists roff. split; [reflexivity|]. split; [auto|].
        destruct Hpol as [Hpol|[Hpol _]]; [left; exact Hpol|right].
        destruct (Nat.lt_ge_cases roff (length ID)) as [Hlt|Hge]; [exact Hlt|].
        exfalso. apply Hpol. apply skipn_all2. lia.
      + (* Finish *)
        destruct (cd_eager C) eqn:Hea; [|exact Hplain2].
        injection Hrunat as Hr1 Htm0. subst rest. injection 1 as <- <- <- <-.
        refine (sr_res_end _ _ _ _ _ _ _ _ _ _ [] Hplain Hdl P1 _ _ P2 _ _ _); auto. congruence.
      + (* Corrupt *)
        destruct (cd_eager C) eqn:Hea; [|exact Hplain2].
        injection Hrunat as Hr1 Htm0. subst rest. injection 1 as <- <- <- <-.
        refine (sr_res_end _ _ _ _ _ _ _ _ _ _ [] Hplain Hdl P1 _ _ P2 _ _ _); auto. congruence.
  Qed.

  (** ** Reads on a dead SaverReader *)
  Lemma sr_read_dead fuel i sck s nb o i' sck' s' r :
    sr_dead i s o -> (0 < fuel)%nat -> sr_read C I fuel0 fuel i sck s nb = (i', sck', s', r) ->
    exists e, sr_fail C s = Some e /\ r = RRet [] (Some e) /\ i' = i /\ sck' = sck /\ s' = s /\ e <> EReadyToSave /\ e <> EEof.
  Proof.
    intros (roff & mi & e & Hat & Hwo & Ho & Hp & Hf & H1 & H2). intros Hfu. destruct fuel as [|fuel]; [lia|]. cbn [sr_read]. rewrite Hp, Hf.
    injection 1 as <- <- <- <-. exists e. splits; auto.
  Qed.

  (** ** The laws *)
  Definition dc_wf (s : dstate C I) : Prop :=
    lw_wf LI (ds_in C I s) /\ (ds_sr C I s = None -> lw_quiet LI (ds_in C I s)).
  Definition dc_at (s : dstate C I) (o m : nat) : Prop :=
    exists sr, ds_sr C I s = Some sr /\ ds_off C I s = Z.of_nat o /\
      sr_at (ds_in C I s) (ds_sck C I s) sr o m.
  Definition dc_quiet (s : dstate C I) : Prop :=
    lw_quiet LI (ds_in C I s) /\ (forall sr, ds_sr C I s = Some sr -> sr_want C sr = false).
  Definition dc_clean (s : dstate C I) : Prop :=
    lw_clean LI (ds_in C I s) /\
    (forall sr e, ds_sr C I s = Some sr -> sr_fail C sr = Some e -> e = tm /\ sr_woff C sr = zlen D).
  Definition dc_ck (c : sckpt (dck C I)) : Prop :=
    exists dk ic roff d n rest,
      ck_data c = Some dk /\ 0 <= ck_off c <= zlen D /\ dk_off C I dk = ck_off c /\ dk_woff C I dk = ck_off c /\
      dk_src C I dk = Some ic /\ lw_ck LI ic /\ ck_off ic <= Z.of_nat roff /\
      dk_roff C I dk = Z.of_nat roff /\ (roff <= length ID)%nat /\ (lw_polite LI = true \/ (roff < length ID)%nat) /\
      dk_snap C I dk = Some d /\ (n <= N)%nat /\ run_at n d roff rest true /\
      skipn (Z.to_nat (ck_off c)) D = rest.

  Lemma mk_dc_ck off p sr1 roff n rest c :
    off = Z.of_nat p -> Z.of_nat p <= zlen D -> sr_woff C sr1 = Z.of_nat p -> sr_roff C sr1 = Z.of_nat roff ->
    lw_ck LI c -> ck_off c <= Z.of_nat roff -> (roff <= length ID)%nat ->
    (lw_polite LI = true \/ (roff < length ID)%nat) -> (n <= N)%nat ->
    run_at n (sr_d C sr1) roff rest true -> skipn p D = rest ->
    dc_ck (MkCk off (Some (MkDck C I off (Some c) (sr_roff C sr1) (sr_woff C sr1) (Some (sr_d C sr1))))).
  Proof.
    intros -> H1 H2 H3 H4 H5 H6 H7 H8 H9 H10. rewrite H2, H3.
    exists (MkDck C I (Z.of_nat p) (Some c) (Z.of_nat roff) (Z.of_nat p) (Some (sr_d C sr1))), c, roff, (sr_d C sr1), n, rest.
    cbn [ck_off ck_data dk_off dk_src dk_roff dk_woff dk_snap]. splits; auto; try lia.
    rewrite Nat2Z.id. exact H10.
  Qed.

  Lemma sr_at_len i sck s o m : sr_at i sck s o m -> (o <= length D)%nat /\ (m <= N + length D)%nat.
  Proof.
    intros [(n & fr & (roff & mi & rest & H1 & H2 & H3 & H4 & H5 & _) & ->)|((roff & mi & e & _ & _ & H & _) & H2)]; lia.
  Qed.

  Lemma sr_at_in i sck s o m : sr_at i sck s o m -> exists roff mi, lw_at LI i roff mi.
  Proof.
    intros [(n & fr & (roff & mi & rest & H1 & _) & ->)|((roff & mi & e & H & _) & H2)]; eauto.
  Qed.

  (** Everything Read does once positioned. *)
  Definition dc_ret (s s' : dstate C I) (evs : list (sckpt (dck C I) * cres)) (nb o m : nat) (d : bytes) (e : option gerr) : Prop :=
    (length d <= nb)%nat /\ d = slice D o (length d) /\
    (exists m', dc_at s' (o + length d) m' /\ (m' <= m)%nat /\ (e = None -> (m' < m)%nat)) /\
    (dc_quiet s -> dc_quiet s') /\ (dc_clean s -> dc_clean s') /\
    (forall c rr, In (c, rr) evs -> rr <> CPanic /\
       (ck_off c = Z.of_nat o \/ cd_eager_save C = true /\ ck_off c = Z.of_nat (o + length d)) /\
       (forall x, rr = CErr x -> e = Some x)) /\
    match e with
    | None => True
    | Some e =>
        (o + length d = length D /\ e = tm /\ (negb (cd_eager C) = true -> d = []))%nat
        \/ (exists c, In (c, CErr e) evs)
        \/ (~ dc_clean s /\ e <> EEof /\ e <> EReadyToSave)
    end /\
    (Neb -> forall sr n fr, ds_sr C I s = Some sr -> sr_run (ds_in C I s) (ds_sck C I s) sr o n fr ->
       d = [] -> (e = None \/ evs <> []) -> fr = false /\
       exists sr' n', ds_sr C I s' = Some sr' /\ sr_run (ds_in C I s') (ds_sck C I s') sr' o n' true) /\
    (d <> [] -> cd_eager_save C = false -> evs = []) /\
    (d <> [] -> cd_eager C = false -> cd_eager_save C = false -> e = None) /\
    (d <> [] -> cd_eager C = false -> e = None \/ exists c x, In (c, CErr x) evs /\ e = Some x).

  Lemma dcomp_read_full K (cb : callback (dck C I) K) s k nb o m s' k' r :
    dc_at s o m -> (0 < nb)%nat -> dcomp_read C cfg I fuel0 cb s k nb = (s', k', r) ->
    exists evs, calls cb k evs k' /\ (length evs <= 1)%nat /\
      (forall c rr, In (c, rr) evs -> ~ dc_quiet s /\ dc_ck c) /\
      ds_ssc C I s' = ds_ssc C I s /\ ds_buf C I s' = ds_buf C I s /\
      match r with
      | RRet d e => dc_ret s s' evs nb o m d e
      | RPanic => exists c, In (c, CPanic) evs
      | RHang => False
      end.
  Proof.
    intros (sr & Hsr & Hoff & Hat) Hnb. unfold dcomp_read. rewrite Hsr.
    destruct (sr_read C I fuel0 fuel0 (ds_in C I s) (ds_sck C I s) sr nb) as [[[i1 sck1] sr1] rr] eqn:Hread.
    destruct Hat as [(n & fr & Hrn & ->)|(Hdead & Hm)].
    - assert (HnN : (n < fuel0)%nat).
      { destruct Hrn as (? & ? & ? & _ & _ & _ & _ & H & _). lia. }
      destruct (sr_read_run fuel0 _ _ _ _ _ _ _ _ _ _ _ Hrn HnN Hnb Hread)
        as (d & e & -> & R2 & R3 & R4 & R5 & (R6 & R7 & R8)).
      assert (Hoff1 : ds_off C I s + zlen d = Z.of_nat (o + length d)) by (rewrite Hoff; unfold zlen; lia).
      assert (Hcl : forall off ssc sck2 b, dc_clean s -> dc_clean (MkDs C I i1 (Some sr1) off ssc sck2 b)).
      { intros off ssc sck2 b [Hc _]. destruct (R5 Hc) as [W1 W2]. split; [exact W1|]. cbn. intros sr0 e0 [= <-]. apply W2. }
      assert (Hqu : dc_quiet s -> lw_quiet LI i1 /\ sr_want C sr1 = false /\ e <> Some EReadyToSave).
      { intros [Hq1 Hq2]. apply R4; auto. }
      assert (Hnc : ~ lw_clean LI (ds_in C I s) -> ~ dc_clean s) by (intros H1 [H2 _]; tauto).
      assert (Hdlen : (o + length d <= length D)%nat).
      { destruct (Nat.eq_dec (length d) 0) as [E|E].
        - destruct Hrn as (? & ? & ? & _ & _ & _ & H & _). lia.
        - apply (f_equal (@length _)) in R3. pose proof (slice_length_le2 D o (length d)). lia. }
      destruct e as [e|].
      + destruct (gerr_eqb e EReadyToSave) eqn:Hrts.
        * apply gerr_eqb_eq in Hrts. subst e. clear R6 R8. specialize (R7 eq_refl).
          destruct R7 as (n' & T1 & T2 & T3 & T4 & T5 & T6 & T7 & roff & T8 & T9 & T10).
          destruct T9 as (c & -> & Hck & Hcoff). pose proof T1 as (roff' & mi & rest & U1 & U2 & U3 & U4 & U5 & U6 & U7 & U8 & U9).
          assert (roff' = roff) by lia. subst roff'.
          assert (Hrec : forall sck2, sr_run i1 sck2 sr1 (o + length d) n' true).
          { intros sck2. exists roff, mi, rest. splits; auto. rewrite T3. discriminate. }
          assert (Hatres : forall ssc sck2 b, exists m', dc_at (MkDs C I i1 (Some sr1) (ds_off C I s + zlen d) ssc sck2 b) (o + length d) m' /\
             (m' <= n + (length D - o))%nat /\ (m' < n + (length D - o))%nat).
          { intros ssc sck2 b. exists (n' + (length D - (o + length d)))%nat. split; [|lia].
            exists sr1. cbn [ds_in ds_sr ds_off ds_sck]. split; [reflexivity|]. split; [exact Hoff1|]. left. exists n', true. auto. }
          assert (Hnebx : forall sck2 ssc b, Neb -> forall sr0 n0 fr0, ds_sr C I s = Some sr0 -> sr_run (ds_in C I s) (ds_sck C I s) sr0 o n0 fr0 ->
             d = [] -> fr0 = false /\ exists sr' n'0, ds_sr C I (MkDs C I i1 (Some sr1) (ds_off C I s + zlen d) ssc sck2 b) = Some sr' /\
              sr_run (ds_in C I (MkDs C I i1 (Some sr1) (ds_off C I s + zlen d) ssc sck2 b)) (ds_sck C I (MkDs C I i1 (Some sr1) (ds_off C I s + zlen d) ssc sck2 b)) sr' o n'0 true).
          { intros sck2 ssc b HN sr0 n0 fr0 Hs0 Hrn0 ->. assert (sr0 = sr) by congruence. subst sr0.
            cbn [length] in *. rewrite Nat.add_0_r in *. cbn [ds_in ds_sr ds_sck]. split.
            - assert (Hn0 : (n0 < fuel0)%nat).
              { destruct Hrn0 as (? & ? & ? & _ & _ & _ & _ & H & _). lia. }
              destruct (sr_read_run fuel0 _ _ _ _ _ _ _ _ _ _ _ Hrn0 Hn0 Hnb Hread)
                as (d0 & e0 & Hde & _ & _ & _ & _ & (_ & V & _)).
              injection Hde as <- <-. destruct (V eq_refl) as (_ & _ & _ & _ & _ & _ & _ & V' & _). auto.
            - exists sr1, n'. split; [reflexivity|]. apply Hrec. }
          assert (Hret : forall ssc sck2 evs e, (forall c rr, In (c, rr) evs -> rr <> CPanic /\
               (ck_off c = Z.of_nat o \/ cd_eager_save C = true /\ ck_off c = Z.of_nat (o + length d)) /\
               (forall x, rr = CErr x -> e = Some x)) ->
               (forall x, e = Some x -> exists c, In (c, CErr x) evs) ->
               dc_ret s (MkDs C I i1 (Some sr1) (ds_off C I s + zlen d) ssc sck2 (ds_buf C I s)) evs nb o (n + (length D - o)) d e).
          { intros ssc sck2 evs e Hev He. split; [exact R2|]. split; [exact R3|].
            split; [destruct (Hatres ssc sck2 (ds_buf C I s)) as (m' & V1 & V2 & V3); exists m'; auto|].
            split; [intros Hq; destruct (Hqu Hq) as (_ & _ & Hx); congruence|].
            split; [apply Hcl|]. split; [exact Hev|].
            split; [destruct e; [right; left; apply He; reflexivity|exact Logic.I]|].
            split; [intros HN sr0 n0 fr0 Hs0 Hr0 Hd _; exact (Hnebx _ _ _ HN sr0 n0 fr0 Hs0 Hr0 Hd)|].
            split; [intros Hd Hes; exfalso; destruct T6 as [T6|T6]; congruence|].
            split; [intros Hd _ Hes; exfalso; destruct T6 as [T6|T6]; congruence|].
            intros _ _. destruct e as [x|]; [right|auto]. destruct (He x eq_refl) as (c0 & Hc0). exists c0, x. auto. }
          destruct (ds_ssc C I s) eqn:Hssc; cbn [negb].
          -- rewrite T5. cbn [negb].
             set (ck := MkCk (ds_off C I s + zlen d) (Some (MkDck C I (ds_off C I s + zlen d) (Some c) (sr_roff C sr1) (sr_woff C sr1) (Some (sr_d C sr1))))).
             assert (Hgen : ~ dc_quiet s /\ dc_ck ck).
             { split.
               - intros Hq. destruct (Hqu Hq) as (_ & _ & Hx). apply Hx; reflexivity.
               - refine (mk_dc_ck _ _ _ roff n' rest _ _ _ U3 T8 Hck Hcoff _ T10 U5 U7 _).
                 + exact Hoff1.
                 + clear -Hdlen. unfold zlen. lia.
                 + exact (proj1 (lw_at_len _ _ _ LI _ _ _ U1)).
                 + rewrite U8, T4. reflexivity. }
             destruct (cb ck k) as [k1 cr] eqn:Hcb.
             assert (Hofs : ck_off ck = Z.of_nat o \/ cd_eager_save C = true /\ ck_off ck = Z.of_nat (o + length d)).
             { destruct T6 as [-> | T6]; [left; unfold ck; cbn; unfold zlen; cbn; lia|right; split; [exact T6|]; unfold ck; cbn; lia]. }
             clearbody ck.
             assert (Hcom : calls cb k [(ck, cr)] k1 /\ (length [(ck, cr)] <= 1)%nat /\
               (forall c0 rr0, In (c0, rr0) [(ck, cr)] -> ~ dc_quiet s /\ dc_ck c0)).
             { split; [cbn; eauto|]. split; [cbn; lia|]. intros c0 rr0 [Hx|[]]. injection Hx as <- _. exact Hgen. }
             intros Hres. exists [(ck, cr)].
             destruct Hcom as (C1 & C2 & C3).
             destruct cr as [|x|]; injection Hres as <- <- <-;
               (split; [exact C1|]); (split; [exact C2|]); (split; [exact C3|]); (split; [reflexivity|]); (split; [reflexivity|]).
             ++ apply Hret; [|discriminate]. intros c0 rr0 [Hx|[]]. injection Hx as <- <-. splits; auto; discriminate.
             ++ apply Hret.
                { intros c0 rr0 [Hx|[]]. injection Hx as <- <-. split; [discriminate|]. split; [exact Hofs|]. intros y [= <-]. reflexivity. }
                { intros y [= <-]. exists ck. left. reflexivity. }
             ++ exists ck. left. reflexivity.
          -- injection 1 as <- <- <-. exists []. split; [reflexivity|]. split; [cbn; lia|]. split; [intros ? ? []|].
             split; [reflexivity|]. split; [reflexivity|].
             apply Hret; [intros ? ? []|discriminate].
        * assert (Hne : e <> EReadyToSave) by (intros ->; discriminate Hrts).
          destruct (R8 e eq_refl Hne) as [(m' & V1 & V2) V3]. clear R6 R7 R8.
          intros Hres.
          assert (Hres' : (MkDs C I i1 (Some sr1) (ds_off C I s + zlen d) (ds_ssc C I s) sck1 (ds_buf C I s), k, RRet d (Some e)) = (s', k', r)).
          { clear -Hres Hne. destruct e; try exact Hres. congruence. }
          clear Hres. injection Hres' as <- <- <-.
          exists []. split; [reflexivity|]. split; [cbn; lia|]. split; [intros ? ? []|].
          split; [reflexivity|]. split; [reflexivity|].
          split; [exact R2|]. split; [exact R3|].
          split; [exists m'; split; [|split; [exact V2|discriminate]]; exists sr1; splits; auto|].
          split; [intros Hq; destruct (Hqu Hq) as (H1 & H2 & _); split; [exact H1|]; cbn; intros sr0 [= <-]; exact H2|].
          split; [apply Hcl|].
          split; [intros c0 rr0 []|].
          split.
          { destruct V3 as [(H1 & H2 & H3)|(H1 & H2 & H3)]; [left; splits; auto; destruct (cd_eager C); [discriminate|auto]|].
            right. right. splits; auto. }
          split; [intros _ sr0 n0 fr0 _ _ _ [Hx|Hx]; congruence|].
          split; [auto|]. split; intros Hd Hea; [intros Hes|]; exfalso;
          (destruct V3 as [(H1 & H2 & H3)|(H1 & H2 & H3)]; [specialize (H3 Hea)|]; congruence).
      + destruct (R6 eq_refl) as (n' & fr' & V1 & V2 & V3). injection 1 as <- <- <-.
        exists []. split; [reflexivity|]. split; [cbn; lia|]. split; [intros ? ? []|].
        split; [reflexivity|]. split; [reflexivity|].
        split; [exact R2|]. split; [exact R3|].
        split.
        { exists (n' + (length D - (o + length d)))%nat. assert (0 < length d)%nat by (destruct d; [congruence|cbn; lia]).
          split; [|lia]. exists sr1. splits; auto. left. exists n', fr'. auto. }
        split; [intros Hq; destruct (Hqu Hq) as (H1 & H2 & _); split; [exact H1|]; cbn; intros sr0 [= <-]; exact H2|].
        split; [apply Hcl|].
        split; [intros c0 rr0 []|].
        split; [exact Logic.I|]. split; [congruence|]. auto.
    - destruct (sr_read_dead fuel0 _ _ _ _ _ _ _ _ _ Hdead ltac:(lia) Hread) as (e & Hf & -> & -> & -> & -> & He1 & He2).
      intros Hres.
      assert (Hres' : (MkDs C I (ds_in C I s) (Some sr) (ds_off C I s + zlen (@nil byte)) (ds_ssc C I s) (ds_sck C I s) (ds_buf C I s), k, RRet [] (Some e)) = (s', k', r)).
      { clear -Hres He1. destruct e; try exact Hres. congruence. }
      clear Hres. injection Hres' as <- <- <-.
      assert (Hoff0 : ds_off C I s + zlen (@nil byte) = Z.of_nat o) by (rewrite Hoff; cbn; lia).
      exists []. split; [reflexivity|]. split; [cbn; lia|]. split; [intros ? ? []|].
      split; [reflexivity|]. split; [reflexivity|]. unfold dc_ret. cbn [length]. rewrite Nat.add_0_r.
      split; [lia|]. split; [reflexivity|].
      split; [exists m; split; [|split; [lia|discriminate]]; exists sr; splits; auto; right; auto|].
      split; [intros [H1 H2]; split; [exact H1|]; cbn; intros sr0 [= <-]; auto|].
      split; [intros [H1 H2]; split; [exact H1|]; cbn; intros sr0 e0 [= <-]; apply H2; exact Hsr|].
      split; [intros c0 rr0 []|].
      split.
      { destruct (gerr_eqb e tm) eqn:Hetm.
        - apply gerr_eqb_eq in Hetm. destruct (Nat.eq_dec o (length D)) as [Ho|Ho].
          + left. splits; auto.
          + right. right. splits; auto. intros [_ H2]. destruct (H2 sr e Hsr Hf) as [_ Hw].
            destruct Hdead as (? & ? & ? & _ & Hw2 & _). unfold zlen in Hw. lia.
        - right. right. splits; auto. intros [_ H2]. destruct (H2 sr e Hsr Hf) as [Hw _]. subst e.
          rewrite (proj2 (gerr_eqb_eq tm tm) eq_refl) in Hetm. discriminate. }
      split; [intros _ sr0 n0 fr0 _ _ _ [Hx|Hx]; congruence|]. splits; congruence.
  Qed.

  (** ** Resume *)
  Lemma onsave_any : forall evs k k', calls onsave k evs k' -> snd k <> None ->
    snd k' <> None /\ (forall c rr, In (c, rr) evs -> rr = COk).
  Proof.
    intros evs [sck [s|]] k' H Hn; [|cbn in Hn; congruence].
    destruct (onsave_calls evs sck s k' H) as [H1 H2]. split; [|exact H1].
    destruct H2 as [[-> ->]|(c & rr & _ & ->)]; cbn; discriminate.
  Qed.

  Lemma header_ok : forall fuel n i sck osr d roff mi fr i' sck' r,
    lw_at LI i roff mi -> (n <= N)%nat -> run_at n d roff D fr -> (n <= fuel)%nat ->
    (osr = None -> lw_quiet LI i) ->
    sr_header C I fuel0 fuel i sck osr d (Z.of_nat roff) = (i', sck', r) ->
    (lw_quiet LI i -> lw_quiet LI i') /\ (lw_clean LI i -> lw_clean LI i') /\
    match r with
    | Ok sr => sr_want C sr = false /\ exists n', sr_run i' sck' sr 0 n' fr /\ (n' <= n)%nat
    | Err e => ~ lw_clean LI i \/ (D = [] /\ tm <> EEof)
    | _ => False
    end.
  Proof.
    induction fuel as [|f IH]; intros n i sck osr d roff mi fr i' sck' r Hat HnN Hra Hf Hosr.
    { destruct Hra as [Hra _]. assert (n = 0%nat) by lia. subst n. discriminate Hra. }
    destruct n as [|n]; [destruct Hra as [Hra _]; discriminate Hra|].
    assert (Hstay : sr_run i sck (sr_new C d (Z.of_nat roff) 0) 0 (Datatypes.S n) fr).
    { exists roff, mi, D. cbn. splits; auto; try lia. }
    cbn [sr_header].
    pose proof Hra as (Hra1 & Hra2 & Hra3). cbn [crun saves_before_end no_empty_block] in Hra1, Hra2, Hra3.
    destruct (cd_step C d) as [kk|nn kk|b bs d'|d'| |] eqn:Hstep.
    - destruct (s_readbyte I onsave i (sck, osr)) as [[i1 [sck1 osr1]] rb] eqn:Hrb.
      destruct (HB _ onsave i (sck, osr) roff mi i1 (sck1, osr1) rb Hat Hrb) as (evs & Hcalls & Hev & Hb).
      assert (Hok : (forall c rr, In (c, rr) evs -> rr = COk) /\ (osr1 = None -> osr = None)).
      { destruct osr as [s0|].
        - destruct (onsave_any _ _ _ Hcalls) as [H1 H2]; [discriminate|]. split; [exact H2|]. intros ->. cbn in H1. congruence.
        - specialize (Hosr eq_refl). destruct evs as [|[c rr] evs].
          + split; [intros ? ? []|auto].
          + destruct (Hev c rr (or_introl eq_refl)). tauto. }
      destruct Hok as [Hok Hosr1].
      destruct rb as [b [e|]| |].
      + injection 1 as <- <- <-.
        destruct Hb as (_ & Hq & Hc & Hb). split; [exact Hq|]. split; [exact Hc|].
        destruct Hb as [(_ & [[Ho He]|[Hnc _]])|((c & Hin') & _)]; [|left; exact Hnc|].
        * right. rewrite Ho, skipn_all in Hra1. injection Hra1 as H1 H2. split; [congruence|].
          rewrite <- H2. apply eof_map_neq.
        * specialize (Hok _ _ Hin'). discriminate.
      + destruct Hb as (Hnth & (m' & Hat' & _) & Hq & Hc & _).
        rewrite (skipn_cons_nth _ _ _ Hnth) in Hra1, Hra2, Hra3.
        intros Hrec. replace (Z.of_nat roff + 1) with (Z.of_nat (roff + 1)) in Hrec by lia.
        assert (Hra' : run_at n (kk b) (roff + 1) D fr) by (split; [exact Hra1|split; assumption]).
        destruct (IH n i1 sck1 osr1 (kk b) (roff + 1)%nat m' fr i' sck' r Hat' ltac:(lia) Hra' ltac:(lia) ltac:(auto) Hrec)
          as (H1 & H2 & H3).
        split; [auto|]. split; [auto|].
        destruct r as [sr|e| |]; try exact H3.
        * destruct H3 as (H3 & n' & H4 & H5). split; [exact H3|]. exists n'. split; [exact H4|lia].
        * destruct H3; [left; tauto|right; auto].
      + destruct Hb as (c & Hin'). specialize (Hok _ _ Hin'). discriminate.
      + destruct Hb.
    - destruct (read_full I onsave fuel0 i (sck, osr) nn) as [[i1 [sck1 osr1]] rb] eqn:Hrb.
      pose proof (proj2 (lw_at_len _ _ _ LI _ _ _ Hat)) as Hmb.
      destruct (read_full_laws LI _ onsave fuel0 nn i (sck, osr) roff mi i1 (sck1, osr1) rb Hat ltac:(lia) Hrb) as (evs & Hcalls & Hev & Hb).
      assert (Hok : (forall c rr, In (c, rr) evs -> rr = COk) /\ (osr1 = None -> osr = None)).
      { destruct osr as [s0|].
        - destruct (onsave_any _ _ _ Hcalls) as [H1 H2]; [discriminate|]. split; [exact H2|]. intros ->. cbn in H1. congruence.
        - specialize (Hosr eq_refl). destruct evs as [|[c rr] evs].
          + split; [intros ? ? []|auto].
          + destruct (Hev c rr (or_introl eq_refl)). tauto. }
      destruct Hok as [Hok Hosr1].
      destruct rb as [[b [e|]]|e| |]; [| |destruct Hb| |destruct Hb].
      + injection 1 as <- <- <-.
        destruct Hb as (_ & _ & _ & Hq & Hc & _ & Hbl & Hb). split; [exact Hq|]. split; [exact Hc|].
        destruct Hb as [[Ho He]|[(c & Hin')|[Hnc _]]]; [| |left; exact Hnc].
        * right. assert (Hs : (nn <=? length (skipn roff ID))%nat = false) by (apply Nat.leb_gt; rewrite skipn_length; lia).
          rewrite Hs in Hra1. injection Hra1 as H1 H2. split; [congruence|].
          rewrite <- H2. apply eof_map_neq.
        * specialize (Hok _ _ Hin'). discriminate.
      + destruct Hb as (Hsl & _ & (m' & Hat' & _) & Hq & Hc & _ & Hbn).
        pose proof (proj1 (lw_at_len _ _ _ LI _ _ _ Hat')) as Hrl.
        assert (Hs : (nn <=? length (skipn roff ID))%nat = true) by (apply Nat.leb_le; rewrite skipn_length; lia).
        rewrite Hs in Hra1, Hra2, Hra3.
        assert (Hbb : firstn nn (skipn roff ID) = b) by (rewrite Hsl, Hbn; reflexivity).
        rewrite Hbb, skipn_skipn', <- Hbn in Hra1, Hra2, Hra3.
        intros Hrec. replace (Z.of_nat roff + zlen b) with (Z.of_nat (roff + length b)) in Hrec by (unfold zlen; lia).
        assert (Hra' : run_at n (kk b) (roff + length b) D fr) by (split; [exact Hra1|split; assumption]).
        destruct (IH n i1 sck1 osr1 (kk b) (roff + length b)%nat m' fr i' sck' r Hat' ltac:(lia) Hra' ltac:(lia) ltac:(auto) Hrec)
          as (H1 & H2 & H3).
        split; [auto|]. split; [auto|].
        destruct r as [sr|e| |]; try exact H3.
        * destruct H3 as (H3 & n' & H4 & H5). split; [exact H3|]. exists n'. split; [exact H4|lia].
        * destruct H3; [left; tauto|right; auto].
      + destruct Hb as (c & Hin'). specialize (Hok _ _ Hin'). discriminate.
    - injection 1 as <- <- <-. splits; auto. exists (Datatypes.S n). auto.
    - injection 1 as <- <- <-. splits; auto. exists (Datatypes.S n). auto.
    - injection 1 as <- <- <-. splits; auto. exists (Datatypes.S n). auto.
    - injection 1 as <- <- <-. splits; auto. right. injection Hra1 as H1 H2. split; [auto|]. rewrite <- H2. discriminate.
  Qed.

  Hypothesis Hpull : starts_by_reading C.

  Lemma empty_input : ID = [] -> itm <> EEof -> D = [] /\ tm <> EEof.
  Proof.
    intros Hi Ht. unfold starts_by_reading in Hpull. rewrite Hi in Hrun. destruct N as [|n]; [discriminate Hrun|].
    cbn [crun] in Hrun. destruct (cd_step C (cd_init C)) as [kk|[|nn] kk|b bs d'|d'| |]; try contradiction; cbn [length Nat.leb] in Hrun;
    injection Hrun as H1 H2; (split; [congruence|]; rewrite <- H2; apply eof_map_neq).
  Qed.

  Lemma run_at_init : run_at N (cd_init C) 0 D false.
  Proof. split; [exact Hrun|]. split; [exact Hin|]. intros H; exact H. Qed.

  Lemma fresh_ok s s' r : dc_wf s -> dcomp_fresh C cfg I fuel0 s = (s', r) ->
    match r with
    | Ok z => z = 0 /\ exists m, dc_at s' 0 m /\ (dc_quiet s -> dc_quiet s') /\ (lw_clean LI (ds_in C I s) -> dc_clean s')
    | Err _ => ~ lw_clean LI (ds_in C I s) \/ (D = [] /\ tm <> EEof)
    | _ => False
    end.
  Proof.
    intros [Hwf Hq0]. unfold dcomp_fresh.
    destruct (s_resume I (ds_in C I s) None) as [i1 r1] eqn:Hr.
    pose proof (lw_resume _ _ _ LI _ None _ _ Hwf ltac:(discriminate) Hr) as Hrs.
    destruct r1 as [z|e| |]; [| |destruct Hrs|destruct Hrs].
    - destruct Hrs as (-> & m & Hat & Hq & Hc). cbn [Z.eqb negb]. change (Z.to_nat 0) with 0%nat in Hat.
      destruct (cf_hdr cfg).
      + destruct (sr_header C I fuel0 fuel0 i1 (ds_sck C I s) (ds_sr C I s) (cd_init C) 0) as [[i2 sck2] rh] eqn:Hh.
        destruct (header_ok fuel0 N i1 _ _ _ 0%nat m false i2 sck2 rh Hat ltac:(lia) run_at_init ltac:(lia) (fun H => Hq (Hq0 H)) Hh)
          as (H1 & H2 & H3).
        destruct rh as [sr|e| |]; [| |destruct H3|destruct H3]; intros [= <- <-].
        * destruct H3 as (H3 & n' & H4 & H5). split; [reflexivity|].
          exists (n' + (length D - 0))%nat. split; [exists sr; splits; auto; left; exists n', false; auto|].
          split.
          { intros [Hqa _]. split; [auto|]. cbn. intros sr0 [= <-]. exact H3. }
          { intros Hcl. split; [auto|]. cbn. intros sr0 e0 [= <-]. destruct H4 as (? & ? & ? & _ & _ & _ & _ & _ & -> & _). discriminate. }
        * destruct H3 as [H3|H3]; [left|right; exact H3]. tauto.
      + intros [= <- <-]. split; [reflexivity|].
        exists (N + (length D - 0))%nat. split.
        { exists (sr_new C (cd_init C) 0 0). splits; auto. left. exists N, false. split; [|reflexivity].
          exists 0%nat, m, D. cbn. splits; auto; try lia; try discriminate. exact run_at_init. }
        split.
        { intros [Hqa _]. split; [auto|]. cbn. intros sr0 [= <-]. reflexivity. }
        { intros Hcl. split; [auto|]. cbn. intros sr0 e0 [= <-]. discriminate. }
    - intros [= <- <-]. destruct Hrs as [Hrs|[H1 H2]]; [left; exact Hrs|right]. apply empty_input; assumption.
  Qed.

  Lemma resume_ok s c s' r : dc_wf s -> (forall x, c = Some x -> dc_ck x) ->
    dcomp_resume C cfg I fuel0 s c = (s', r) ->
    match r with
    | Ok z => z = match c with Some x => ck_off x | None => 0 end /\
        exists m, dc_at s' (Z.to_nat z) m /\ (dc_quiet s -> dc_quiet s') /\ (lw_clean LI (ds_in C I s) -> dc_clean s')
    | Err _ => ~ lw_clean LI (ds_in C I s) \/ (D = [] /\ tm <> EEof)
    | _ => False
    end.
  Proof.
    intros Hwf Hck. destruct c as [x|].
    2:{ cbn [dcomp_resume]. intros Hf. apply (fresh_ok s s' r Hwf) in Hf. destruct r; auto.
        destruct Hf as [-> Hf]. auto. }
    destruct (Hck x eq_refl) as (dk & ic & roff & d & n & rest & E1 & E2 & E3 & E4 & E5 & E6 & E7 & E8 & E9 & E10 & E11 & E12 & E13 & E14).
    destruct x as [off da]. cbn [ck_data ck_off] in *. subst da. cbn [dcomp_resume]. rewrite E5.
    destruct Hwf as [Hwf Hq0].
    destruct (s_resume I (ds_in C I s) (Some ic)) as [i1 r1] eqn:Hr.
    pose proof (lw_resume _ _ _ LI _ (Some ic) _ _ Hwf ltac:(intros ? [= <-]; exact E6) Hr) as Hrs.
    destruct r1 as [z|e| |]; [| |destruct Hrs|destruct Hrs].
    - destruct Hrs as (-> & m & Hat & Hq & Hc).
      destruct (discard_by_read I onsave fuel0 i1 (ds_sck C I s, ds_sr C I s) (dk_roff C I dk - ck_off ic)) as [[i2 [sck2 sr2]] r2] eqn:Hd.
      pose proof (lw_at_len _ _ _ LI _ _ _ Hat) as [_ Hmb].
      assert (Hcb : forall c0 k0 k1 rr, (snd k0 <> None \/ lw_quiet LI i1) -> lw_ck LI c0 -> onsave c0 k0 = (k1, rr) ->
                ~ lw_quiet LI i1 -> rr = COk /\ (snd k1 <> None \/ lw_quiet LI i1)).
      { intros c0 [a [b|]] k1 rr [Hp|Hp] _ Hcall Hnq; cbn in *; try congruence; try tauto.
        injection Hcall as <- <-. split; [reflexivity|]. left. cbn. discriminate. }
      assert (HP0 : snd (ds_sck C I s, ds_sr C I s) <> None \/ lw_quiet LI i1).
      { cbn. destruct (ds_sr C I s); [left; discriminate|right; auto]. }
      pose proof (discard_ok LI _ onsave _ fuel0 i1 _ _ _ m i2 (sck2, sr2) r2 Hcb HP0 Hat ltac:(lia) Hd) as (_ & D2 & D3).
      rewrite E8 in *. pose proof (lw_ck_len _ _ _ LI ic E6) as Hicl.
      destruct r2 as [u|e| |]; [| |destruct D3|destruct D3].
      + destruct D3 as (m' & Hat2 & _ & Hc2).
        replace (ck_off ic <=? Z.of_nat roff) with true by lia. rewrite E11.
        replace (if cf_own_off cfg then dk_off C I dk else dk_woff C I dk) with off by (destruct (cf_own_off cfg); congruence).
        intros [= <- <-]. split; [reflexivity|].
        exists (n + (length D - Z.to_nat off))%nat. split; [|split].
        * exists (sr_new C d (Z.of_nat roff) (dk_woff C I dk)). cbn [ds_in ds_sr ds_off ds_sck]. splits; auto; [lia|].
          left. exists n, true. split; [|reflexivity]. exists roff, m', rest. cbn [sr_new sr_roff sr_woff sr_fail sr_d sr_pend sr_want app].
          replace (Z.to_nat (ck_off ic) + Z.to_nat (Z.of_nat roff - ck_off ic))%nat with roff in Hat2 by lia.
          unfold zlen in E2. splits; auto; try lia.
        * intros [Hqa _]. destruct (D2 (Hq Hqa)) as [D2a _]. split; [exact D2a|]. cbn. intros sr0 [= <-]. reflexivity.
        * intros Hcl. split; [cbn; auto|]. cbn. intros sr0 e0 [= <-]. discriminate.
      + intros [= <- <-]. left. intros Hcl. destruct D3 as (o2 & m2 & _ & _ & _ & _ & [D3|(_ & _ & D4 & D5)]); [tauto|].
        assert (Hp : lw_polite LI = false) by (apply D5; lia).
        destruct E10; [congruence|lia].
    - intros [= <- <-]. destruct Hrs as [Hrs|[H1 H2]]; [left; exact Hrs|right]. apply empty_input; assumption.
  Qed.

  Lemma dcomp_fwd K (cb : callback (dck C I) K) s k nb o m s' k' d :
    dc_at s o m -> dc_quiet s -> (0 < nb)%nat -> dcomp_read C cfg I fuel0 cb s k nb = (s', k', RRet d None) -> d <> [].
  Proof.
    intros (sr & Hsr & Hoff & Hat) [Hq1 Hq2] Hnb. unfold dcomp_read. rewrite Hsr.
    destruct (sr_read C I fuel0 fuel0 (ds_in C I s) (ds_sck C I s) sr nb) as [[[i1 sck1] sr1] rr] eqn:Hread.
    destruct Hat as [(n & fr & Hrn & ->)|(Hdead & Hm)].
    - assert (HnN : (n < fuel0)%nat).
      { destruct Hrn as (? & ? & ? & _ & _ & _ & _ & H & _). lia. }
      destruct (sr_read_run fuel0 _ _ _ _ _ _ _ _ _ _ _ Hrn HnN Hnb Hread)
        as (d0 & e & -> & _ & _ & R4 & _ & (R6 & _)).
      destruct (R4 Hq1 (Hq2 _ Hsr)) as (_ & _ & He).
      destruct e as [e|]; [destruct e; discriminate || congruence|].
      injection 1 as _ _ <-. destruct (R6 eq_refl) as (_ & _ & _ & _ & Hd). exact Hd.
    - destruct (sr_read_dead fuel0 _ _ _ _ _ _ _ _ _ Hdead ltac:(lia) Hread) as (e & Hf & -> & -> & -> & -> & He1 & He2).
      destruct e; discriminate || congruence.
  Qed.

  Definition dcomp_laws : laws src D tm.
  Proof.
    refine (MkLaws src D tm dc_wf dc_at dc_quiet dc_clean dc_ck (N + length D) (cd_eager_save C) (negb (cd_eager C))
      _ _ _ _ _ _ _ _ _ _).
    - exact Htm.
    - intros st o m (sr & H1 & H2 & H3). destruct (sr_at_in _ _ _ _ _ H3) as (roff & mi & H4).
      split; [exact (lw_at_wf _ _ _ LI _ _ _ H4)|]. congruence.
    - intros st o m (sr & H1 & H2 & H3). exact (sr_at_len _ _ _ _ _ H3).
    - intros c (dk & ic & roff & d & n & rest & _ & H & _). exact H.
    - intros st [Hwf Hq]. destruct (lw_setssc _ _ _ LI _ Hwf) as (H1 & H2 & H3 & H4).
      split; [split; [exact H1|]; cbn; auto|]. split; [|split].
      + intros o m (sr & E1 & E2 & E3). exists sr. cbn. splits; auto.
        destruct E3 as [(n & fr & (roff & mi & rest & F1 & F2) & ->)|((roff & mi & e & F1 & F2) & F3)].
        * left. exists n, fr. split; [exists roff, mi, rest; auto|reflexivity].
        * right. split; [exists roff, mi, e; auto|exact F3].
      + intros [Ha Hb]. split; [cbn; auto|exact Hb].
      + intros [Ha Hb]. split; [cbn; auto|exact Hb].
    - intros st o m (sr & E1 & E2 & E3). split.
      + exists sr. cbn. splits; auto.
        destruct E3 as [(n & fr & (roff & mi & rest & F1 & F2) & ->)|((roff & mi & e & F1 & F2) & F3)].
        * left. exists n, fr. split; [exists roff, mi, rest; split; [|exact F2]|reflexivity]. exact (proj1 (lw_want _ _ _ LI _ _ _ F1)).
        * right. split; [exists roff, mi, e; split; [|exact F2]|exact F3]. exact (proj1 (lw_want _ _ _ LI _ _ _ F1)).
      + destruct (sr_at_in _ _ _ _ _ E3) as (roff & mi & H4).
        intros [Ha Hb]. split; [cbn; exact (proj2 (lw_want _ _ _ LI _ _ _ H4) Ha)|exact Hb].
    - intros st o m (sr & E1 & E2 & E3). destruct (sr_at_in _ _ _ _ _ E3) as (roff & mi & H4). exact (lw_prog _ _ _ LI _ _ _ H4).
    - intros st c st' r Hwf Hck Hr. pose proof (resume_ok st c st' r Hwf Hck Hr) as H.
      destruct r as [z|e| |]; try exact H.
      + destruct H as (H1 & m & H2 & H3 & H4). split; [exact H1|]. exists m. splits; auto. intros [Ha _]; auto.
      + destruct H as [H|H]; [left; intros [Ha _]; tauto|right; exact H].
    - intros K cb st k n o m st' k' r Hat Hn Hr.
      destruct (dcomp_read_full K cb st k n o m st' k' r Hat Hn Hr) as (evs & H1 & H2 & H3 & _ & _ & H4).
      exists evs. split; [exact H1|]. split; [exact H2|]. split; [exact H3|].
      destruct r as [d e| |]; try exact H4.
      destruct H4 as (G1 & G2 & G3 & G4 & G5 & G6 & G7 & _).
      split; [exact G1|]. split; [exact G2|]. split; [exact G3|]. split; [exact G4|]. split; [exact G5|].
      split; [intros c rr Hi; destruct (G6 c rr Hi) as (Ha & Hb & _); split; [exact Ha|exact Hb]|].
      exact G7.
    - intros K cb st k n o m st' k' d Hat Hq Hn Hr. exact (dcomp_fwd K cb st k n o m st' k' d Hat Hq Hn Hr).
  Defined.

  (** ** ReadByte *)
  Lemma sr_read_sticky : forall fuel i sck s nb i' sck' s' d x,
    (sr_pend C s <> [] -> sr_fail C s = None) -> (0 < nb)%nat ->
    sr_read C I fuel0 fuel i sck s nb = (i', sck', s', RRet d (Some x)) -> x <> EReadyToSave ->
    forall f' nb', (0 < f')%nat -> sr_read C I fuel0 f' i' sck' s' nb' = (i', sck', s', RRet [] (Some x)).
  Proof.
    induction fuel as [|f IH]; intros i sck s nb i' sck' s' d x Hpf Hnb Hr Hx f' nb' Hf'; (destruct f' as [|f']; [lia|]).
    - cbn [sr_read] in Hr. destruct (sr_pend C s) as [|b bs] eqn:Hp.
      + destruct (sr_fail C s) eqn:Hf; [|discriminate]. injection Hr as <- <- <- <- <-.
        cbn [sr_read]. rewrite Hp, Hf. reflexivity.
      + assert (Hf : sr_fail C s = None) by (apply Hpf; discriminate).
        destruct (skipn nb (b :: bs)); [|discriminate].
        destruct (cd_step C (sr_d C s)) eqn:Hs; try discriminate;
          try (destruct (cd_eager C); [|discriminate]); try (destruct (cd_eager_save C && sr_want C s); [|discriminate]);
          injection Hr as <- <- <- <- <-; try congruence;
          cbn [sr_read sr_pend sr_fail sr_d]; rewrite Hf, Hs; reflexivity.
    - cbn [sr_read] in Hr. destruct (sr_pend C s) as [|b bs] eqn:Hp.
      + destruct (sr_fail C s) eqn:Hf.
        { injection Hr as <- <- <- <- <-. cbn [sr_read]. rewrite Hp, Hf. reflexivity. }
        destruct (cd_step C (sr_d C s)) as [kk|nn kk|b bs d'|d'| |] eqn:Hs.
        * destruct (s_readbyte I onsave i (sck, Some s)) as [[i1 [sck1 [s1|]]] [b [e|]| |]] eqn:Hrb; try discriminate.
          -- injection Hr as <- <- <- <- <-. cbn [sr_read sr_pend sr_fail]. reflexivity.
          -- eapply IH; [| |exact Hr|exact Hx|lia]; [cbn; congruence|exact Hnb].
        * destruct (read_full I onsave fuel0 i (sck, Some s) nn) as [[i1 [sck1 [s1|]]] [[b [e|]]|e| |]] eqn:Hrb; try discriminate.
          -- injection Hr as <- <- <- <- <-. cbn [sr_read sr_pend sr_fail]. reflexivity.
          -- eapply IH; [| |exact Hr|exact Hx|lia]; [cbn; congruence|exact Hnb].
        * eapply IH; [| |exact Hr|exact Hx|lia]; [cbn; congruence|exact Hnb].
        * destruct (sr_want C s); [injection Hr as <- <- <- <- <-; congruence|].
          eapply IH; [| |exact Hr|exact Hx|lia]; [cbn; congruence|exact Hnb].
        * injection Hr as <- <- <- <- <-. cbn [sr_read]. rewrite Hp, Hf, Hs. reflexivity.
        * injection Hr as <- <- <- <- <-. cbn [sr_read]. rewrite Hp, Hf, Hs. reflexivity.
      + assert (Hf : sr_fail C s = None) by (apply Hpf; discriminate).
        destruct (skipn nb (b :: bs)); [|discriminate].
        destruct (cd_step C (sr_d C s)) eqn:Hs; try discriminate;
          try (destruct (cd_eager C); [|discriminate]); try (destruct (cd_eager_save C && sr_want C s); [|discriminate]);
          injection Hr as <- <- <- <- <-; try congruence;
          cbn [sr_read sr_pend sr_fail sr_d]; rewrite Hf, Hs; reflexivity.
  Qed.

  (** after a Read without data: either a block boundary was just passed, or
      the error comes back at every later Read *)
  Lemma dcomp_read_empty K (cb : callback (dck C I) K) s k nb o m s' k' e :
    dc_at s o m -> (0 < nb)%nat -> dcomp_read C cfg I fuel0 cb s k nb = (s', k', RRet [] e) ->
    (exists sr' n', ds_sr C I s' = Some sr' /\ sr_run (ds_in C I s') (ds_sck C I s') sr' o n' true) \/
    (exists x, e = Some x /\ x <> EReadyToSave /\ forall nb', dcomp_read C cfg I fuel0 cb s' k' nb' = (s', k', RRet [] (Some x))).
  Proof.
    intros (sr & Hsr & Hoff & Hat) Hnb. unfold dcomp_read at 1. rewrite Hsr.
    destruct (sr_read C I fuel0 fuel0 (ds_in C I s) (ds_sck C I s) sr nb) as [[[i1 sck1] sr1] rr] eqn:Hread.
    destruct rr as [d1 e1| |]; [|discriminate|discriminate].
    assert (Hpf : sr_pend C sr <> [] -> sr_fail C sr = None).
    { destruct Hat as [(n & fr & (? & ? & ? & _ & _ & _ & _ & _ & H & _) & _)|((? & ? & ? & _ & _ & _ & H & _) & _)]; auto. congruence. }
    assert (Hf0 : exists f0, fuel0 = Datatypes.S f0) by (destruct fuel0; [lia|eauto]). destruct Hf0 as [f0 Hf0].
    assert (Hother : forall x, e1 = Some x -> x <> EReadyToSave ->
       forall off sck b, sck = sck1 -> off + 0 = off -> forall nb', dcomp_read C cfg I fuel0 cb (MkDs C I i1 (Some sr1) off (ds_ssc C I s) sck b) k nb' =
          (MkDs C I i1 (Some sr1) off (ds_ssc C I s) sck b, k, RRet [] (Some x))).
    { intros x -> Hx off sck b -> Ho nb'. unfold dcomp_read. cbn [ds_sr ds_in ds_sck ds_off ds_ssc ds_buf].
      assert (Hst : sr_read C I fuel0 fuel0 i1 sck1 sr1 nb' = (i1, sck1, sr1, RRet [] (Some x))).
      { eapply sr_read_sticky; [exact Hpf|exact Hnb|exact Hread|exact Hx|lia]. }
      rewrite Hst. change (zlen (@nil byte)) with 0. rewrite Ho. clear -Hx. destruct x; try reflexivity. congruence. }
    destruct Hat as [(n & fr & Hrn & ->)|(Hdead & Hm)].
    - assert (HnN : (n < fuel0)%nat).
      { destruct Hrn as (? & ? & ? & _ & _ & _ & _ & H & _). lia. }
      destruct (sr_read_run fuel0 _ _ _ _ _ _ _ _ _ _ _ Hrn HnN Hnb Hread)
        as (d0 & e0 & Hde & _ & _ & _ & _ & (V1 & V2 & V3)). injection Hde as <- <-.
      destruct e1 as [e1|].
      + destruct (gerr_eqb e1 EReadyToSave) eqn:Hrts.
        * apply gerr_eqb_eq in Hrts. subst e1. intros Hres.
          destruct (V2 eq_refl) as (n' & (roff' & mi & rest & U1 & U2 & U3 & U4 & U5 & U6 & U7 & U8 & U9) & W2 & W3 & W4 & W5 & _).
          assert (Hd1 : d1 = [] /\ exists sck2 b, s' = MkDs C I i1 (Some sr1) (ds_off C I s + zlen d1) (ds_ssc C I s) sck2 b).
          { destruct sck1 as [c|]; [|injection Hres as <- _ <- _; eauto].
            rewrite W5 in Hres. destruct (ds_ssc C I s) eqn:Hssc; cbn [negb] in Hres; [|injection Hres as <- _ <- _; eauto].
            set (ck := MkCk _ _) in Hres. destruct (cb ck k) as [k1 cr]. destruct cr; [| |discriminate]; injection Hres as <- _ <- _; eauto. }
          destruct Hd1 as [-> (sck2 & b & ->)]. left. cbn [ds_in ds_sr ds_sck]. exists sr1, n'. split; [reflexivity|].
          cbn [length] in U3, U4, U8. rewrite Nat.add_0_r in U3, U4, U8.
          exists roff', mi, rest. splits; auto. congruence.
        * assert (Hne : e1 <> EReadyToSave) by (intros ->; discriminate Hrts).
          intros Hres.
          assert (Hres' : (MkDs C I i1 (Some sr1) (ds_off C I s + zlen d1) (ds_ssc C I s) sck1 (ds_buf C I s), k, RRet d1 (Some e1)) = (s', k', RRet [] e)).
          { clear -Hres Hne. destruct e1; try exact Hres. congruence. }
          injection Hres' as <- <- -> <-. right. exists e1. splits; auto. apply Hother; auto; lia.
      + injection 1 as _ _ -> _. destruct (V1 eq_refl) as (? & ? & _ & _ & Hx). congruence.
    - destruct (sr_read_dead fuel0 _ _ _ _ _ _ _ _ _ Hdead ltac:(lia) Hread) as (e2 & Hf & Hde & _ & _ & _ & He1 & He2).
      injection Hde as -> ->. intros Hres.
      assert (Hres' : (MkDs C I i1 (Some sr1) (ds_off C I s + zlen (@nil byte)) (ds_ssc C I s) sck1 (ds_buf C I s), k, RRet [] (Some e2)) = (s', k', RRet [] e)).
      { clear -Hres He1. destruct e2; try exact Hres. congruence. }
      injection Hres' as <- <- <-. right. exists e2. splits; auto. apply Hother; auto; lia.
  Qed.

  Lemma setbuf_at d s o m : dc_at s o m -> dc_at (dcomp_setbuf C I d s) o m.
  Proof. destruct d; intros H; exact H. Qed.
  Lemma setbuf_quiet d s : dc_quiet s -> dc_quiet (dcomp_setbuf C I d s).
  Proof. destruct d; intros H; exact H. Qed.
  Lemma setbuf_clean d s : dc_clean s -> dc_clean (dcomp_setbuf C I d s).
  Proof. destruct d; intros H; exact H. Qed.
  Lemma setbuf_buf b d s : ds_buf C I (dcomp_setbuf C I (b :: d) s) = b.
  Proof. reflexivity. Qed.

  Lemma one_byte (d : bytes) o : (length d <= 1)%nat -> d = slice D o (length d) -> d <> [] -> exists b, d = [b] /\ nth_error D o = Some b.
  Proof.
    destruct d as [|b [|? ?]]; cbn [length]; intros H1 H2 H3; try congruence; try lia.
    exists b. split; [reflexivity|]. apply slice_1. symmetry. exact H2.
  Qed.

  Definition byte_post (K : Type) (cb : callback (dck C I) K) (st : dstate C I) (evs : list (sckpt (dck C I) * cres)) (o m : nat) (st' : dstate C I) (r : bres) : Prop :=
    match r with
    | BRet b None =>
        nth_error D o = Some b
        /\ (exists m', dc_at st' (o + 1) m' /\ (m' < m)%nat)
        /\ (dc_quiet st -> dc_quiet st') /\ (dc_clean st -> dc_clean st')
        /\ (forall c rr, In (c, rr) evs -> rr <> CPanic /\ Z.of_nat o <= ck_off c <= Z.of_nat (o + 1))
    | BRet _ (Some e) =>
        (forall c rr, In (c, rr) evs -> rr <> CPanic /\ Z.of_nat o <= ck_off c <= Z.of_nat (o + 1))
        /\ (dc_quiet st -> dc_quiet st') /\ (dc_clean st -> dc_clean st')
        /\ ((exists m', dc_at st' o m' /\ (m' <= m)%nat)
            /\ ((o = length D /\ e = tm) \/ (~ dc_clean st /\ e <> EEof /\ e <> EReadyToSave))
            \/ ((exists c, In (c, CErr e) evs) /\ exists o' m', dc_at st' o' m'))
    | BPanic => exists c, In (c, CPanic) evs
    | BHang => False
    end.

  (** what one Read of one byte means for ReadByte, when it decides *)
  Lemma byte_from_read K (cb : callback (dck C I) K) s s1 s' evs0 evs o m m1 d e b :
    dc_ret s1 s' evs 1 o m1 d e -> (m1 <= m)%nat -> (dc_quiet s -> dc_quiet s1) -> (dc_clean s -> dc_clean s1) ->
    cd_eager C = false -> (d = [] -> e <> None) -> (d <> [] -> exists d', d = b :: d') ->
    (forall c rr, In (c, rr) evs0 -> rr <> CPanic /\ ck_off c = Z.of_nat o) ->
    byte_post K cb s (evs0 ++ evs) o m (dcomp_setbuf C I d s') (BRet b e).
  Proof.
    intros (G1 & G2 & G3 & G4 & G5 & G6 & G7 & G8 & G9 & G10 & G11) Hm Hq Hc Hea Hde Hdb H0.
    assert (Hevp : forall c rr, In (c, rr) (evs0 ++ evs) -> rr <> CPanic /\ Z.of_nat o <= ck_off c <= Z.of_nat (o + 1)).
    { intros c rr Hi. apply in_app_or in Hi. destruct Hi as [Hi|Hi].
      - destruct (H0 c rr Hi) as [Ha Hb]. split; [exact Ha|lia].
      - destruct (G6 c rr Hi) as (Ha & Hb & _). split; [exact Ha|]. lia. }
    destruct G3 as (m' & Hat' & Hm1 & Hm2).
    destruct e as [e|]; cbn [byte_post].
    - split; [exact Hevp|].
      split; [intros Ha; apply setbuf_quiet; auto|]. split; [intros Ha; apply setbuf_clean; auto|].
      destruct d as [|b0 d0].
      + cbn [length] in *. rewrite Nat.add_0_r in *.
        destruct G7 as [(T1 & T2 & _)|[(c & Hi)|(T1 & T2 & T3)]].
        * left. split; [exists m'; split; [exact Hat'|lia]|]. left. auto.
        * right. split; [exists c; apply in_or_app; right; exact Hi|]. exists o, m'. exact Hat'.
        * left. split; [exists m'; split; [exact Hat'|lia]|]. right. splits; auto.
      + right. destruct (G11 ltac:(discriminate) Hea) as [Hx|(c & x & Hi & Hx)]; [discriminate|].
        injection Hx as <-. split; [exists c; apply in_or_app; right; exact Hi|].
        eexists _, m'. apply setbuf_at. exact Hat'.
    - assert (Hdn : d <> []) by (intros Hd; specialize (Hde Hd); congruence).
      destruct (one_byte d o G1 G2 Hdn) as (b0 & -> & Hnth). destruct (Hdb Hdn) as (d' & Heq). injection Heq as <- _.
      split; [exact Hnth|]. split; [exists m'; split; [exact Hat'|specialize (Hm2 eq_refl); lia]|].
      split; [intros Ha; apply setbuf_quiet; auto|]. split; [intros Ha; apply setbuf_clean; auto|]. exact Hevp.
  Qed.

  Lemma dcomp_byte_law : cd_eager C = false -> Neb -> byte_law dcomp_laws.
  Proof.
    intros Hea HN K cb s k o m s' k' r. change (lw_at dcomp_laws) with dc_at. change (lw_quiet dcomp_laws) with dc_quiet.
    change (lw_clean dcomp_laws) with dc_clean. change (lw_ck dcomp_laws) with dc_ck.
    intros Hat. change (s_readbyte src cb s k) with (dcomp_readbyte C cfg I fuel0 cb s k).
    intros Hr.
    enough (exists evs, calls cb k evs k' /\ (forall c rr, In (c, rr) evs -> ~ dc_quiet s /\ dc_ck c) /\ byte_post K cb s evs o m s' r)
      as (evs & H1 & H2 & H3).
    { exists evs. split; [exact H1|]. split; [exact H2|]. exact H3. }
    unfold dcomp_readbyte in Hr. pose proof Hat as (sr & Hsr & Hoff & Hsat). rewrite Hsr in Hr.
    destruct (dcomp_read C cfg I fuel0 cb s k 1) as [[s1 k1] r1] eqn:Hr1.
    destruct (dcomp_read_full K cb s k 1 o m s1 k1 r1 Hat ltac:(lia) Hr1) as (evs1 & A1 & A2 & A3 & A4 & A5 & A6).
    destruct r1 as [d1 e1| |].
    2:{ injection Hr as <- <- <-. exists evs1. splits; auto. }
    2:{ destruct A6. }
    destruct d1 as [|b1 d1].
    - (* no byte: read again *)
      pose proof A6 as (G1 & G2 & (m1 & Hat1 & Hm1 & Hm1') & G4 & G5 & G6 & G7 & G8 & _).
      cbn [length] in Hat1. rewrite Nat.add_0_r in Hat1.
      destruct (dcomp_read C cfg I fuel0 cb s1 k1 1) as [[s2 k2] r2] eqn:Hr2.
      destruct (dcomp_read_full K cb s1 k1 1 o m1 s2 k2 r2 Hat1 ltac:(lia) Hr2) as (evs2 & B1 & B2 & B3 & B4 & B5 & B6).
      assert (Hevs : forall c rr, In (c, rr) (evs1 ++ evs2) -> ~ dc_quiet s /\ dc_ck c).
      { intros c rr Hi. apply in_app_or in Hi. destruct Hi as [Hi|Hi]; [exact (A3 c rr Hi)|].
        destruct (B3 c rr Hi) as [Ha Hb]. split; [tauto|exact Hb]. }
      assert (Hcalls : calls cb k (evs1 ++ evs2) k2) by (eapply calls_app; eassumption).
      exists (evs1 ++ evs2).
      destruct r2 as [d2 e2| |].
      2:{ injection Hr as <- <- <-. splits; auto. destruct B6 as (c & Hi). exists c. apply in_or_app. right. exact Hi. }
      2:{ destruct B6. }
      injection Hr as <- <- <-. split; [exact Hcalls|]. split; [exact Hevs|].
      assert (Hd2 : d2 = [] -> e2 <> None).
      { intros -> ->.
        destruct (dcomp_read_empty K cb s k 1 o m s1 k1 e1 Hat ltac:(lia) Hr1) as [(sr' & n' & Hs1 & Hrn1)|(x & -> & _ & Hst)].
        - pose proof B6 as (_ & _ & _ & _ & _ & _ & _ & B8 & _).
          destruct (B8 HN sr' n' true Hs1 Hrn1 eq_refl (or_introl eq_refl)) as [Hx _]. discriminate.
        - rewrite Hst in Hr2. discriminate. }
      eapply (byte_from_read K cb s s1 s2 evs1 evs2 o m m1 d2 e2); [exact B6|exact Hm1|exact G4|exact G5|exact Hea|exact Hd2| |].
      + intros Hd. destruct d2 as [|b2 d2]; [congruence|]. exists d2. reflexivity.
      + intros c rr Hi. destruct (G6 c rr Hi) as (Ha & Hb & _). split; [exact Ha|]. cbn in Hb. rewrite Nat.add_0_r in Hb. tauto.
    - injection Hr as <- <- <-. exists evs1. split; [exact A1|]. split; [exact A3|].
      apply (byte_from_read K cb s s s1 [] evs1 o m m (b1 :: d1) e1); auto; [discriminate| |intros ? ? []].
      intros _. exists d1. reflexivity.
  Qed.
End DecompLaws.
