(** Settle_proofs.v -- what is preserved while an extractor works on a lawful sink. *)
From Verif Require Import Base Base_proofs Source Sink SinkSpec.

(** a sink that takes any content *)
Lemma storable_any {SK} (L : sink_laws SK) items : (forall l c, kl_fits L l c) -> (forall it, In it items -> kl_valid L (fst it)) -> storable L items.
Proof. intros H1 H2. split; [exact H2|]. intros. left. apply H1. Qed.

Section Settle.
  Context {SK : sink} (L : sink_laws SK) (items : list item) (view0 : kl_loc L -> option node).
  Hypothesis Hvalid : storable L items.

  Notation view := (kl_view L).
  Notation is_last := (is_last L items).

  Definition outside (st : k_st SK) : Prop :=
    forall l, ~ some_item_at L items l -> ~ some_item_below L items l -> view st l = view0 l.

  (** The first [k] items are in place. *)
  Definition settled (k : nat) (st : k_st SK) : Prop :=
    (forall i e nd l, (i < k)%nat -> nth_error items i = Some (e, nd) -> kl_of L e = Some l -> is_last i l -> view st l = Some nd) /\
    (forall i e nd l l', (i < k)%nat -> nth_error items i = Some (e, nd) -> kl_of L e = Some l -> kl_anc L l' l -> view st l' = Some NDir) /\
    outside st.

  (** The first [w] bytes of file [j] are in place. *)
  Definition part (j : nat) (w : nat) (st : k_st SK) : Prop :=
    forall e D l, nth_error items j = Some (e, NFile D) -> kl_of L e = Some l -> is_last j l -> (0 < w)%nat ->
      exists c, view st l = Some (NFile c) /\ (w <= length c)%nat /\ firstn w c = firstn w D.

  (** Something the sink did for item [j], keeping the first [w] bytes. *)
  Definition kstep (j w : nat) (st st' : k_st SK) : Prop :=
    exists e nd, nth_error items j = Some (e, nd) /\
    kl_inv L st' /\ kl_frame L st st' (kl_of L e) /\
    (forall l, kl_of L e = Some l -> en_kind e = EkDir -> view st l = Some NDir -> view st' l = Some NDir) /\
    (forall l c n, kl_of L e = Some l -> view st l = Some (NFile c) -> (0 < n <= w)%nat -> (n <= length c)%nat ->
       exists c', view st' l = Some (NFile c') /\ (n <= length c')%nat /\ firstn n c' = firstn n c).

  Lemma settled_mono k k' st : (k' <= k)%nat -> settled k st -> settled k' st.
  Proof. intros Hk (A & B & C). unfold settled. splits; [|intros; eapply B; eauto; lia|exact C]. intros; eapply A; eauto; lia. Qed.

  Lemma settled_0 st : outside st -> settled 0 st.
  Proof. intros H. unfold settled. splits; [intros; lia..|exact H]. Qed.

  Lemma frame_outside e nd j st st' : nth_error items j = Some (e, nd) -> kl_frame L st st' (kl_of L e) -> outside st -> outside st'.
  Proof.
    intros Hj Hf H l H1 H2. assert (Hin : In (e, nd) items) by (eapply nth_error_In; eassumption).
    destruct (Hf l) as [Heq|(l1 & Ho & Ha & _)].
    - intros Ho. apply H1. exists (e, nd). auto.
    - rewrite Heq. apply H; assumption.
    - exfalso. apply H2. exists (e, nd), l1. auto.
  Qed.

  Lemma kstep_settled j w k st st' : kstep j w st st' -> (k <= j)%nat -> settled k st -> settled k st'.
  Proof.
    intros (e & nd & Hj & Hinv & Hf & Hd & Hp) Hk (A & B & C).
    assert (Hin : In (e, nd) items) by (eapply nth_error_In; eassumption).
    unfold settled. splits.
    - intros i e1 nd1 l Hi Hn Ho Hl.
      assert (Hne : kl_of L e <> Some l) by (exact (Hl j (e, nd) ltac:(lia) Hj)).
      destruct (Hf l Hne) as [Heq|(l1 & _ & _ & Hnone & _)].
      + rewrite Heq. eapply A; eauto.
      + rewrite (A i e1 nd1 l Hi Hn Ho Hl) in Hnone. discriminate.
    - intros i e1 nd1 l l' Hi Hn Ho Ha.
      pose proof (B i e1 nd1 l l' Hi Hn Ho Ha) as Hdir.
      assert (Hin1 : In (e1, nd1) items) by (eapply nth_error_In; eassumption).
      destruct (kl_of L e) as [l0|] eqn:Hoe.
      + destruct (kl_dec L l0 l') as [->|Hne].
        * apply Hd; [reflexivity| |exact Hdir].
          exact (kl_anc_dir _ L e1 e l l' (proj1 Hvalid _ Hin1) (proj1 Hvalid _ Hin) Ho Hoe Ha).
        * destruct (Hf l' ltac:(congruence)) as [Heq|(l1 & _ & _ & _ & ?)]; [congruence|assumption].
      + destruct (Hf l' ltac:(congruence)) as [Heq|(l1 & ? & _)]; congruence.
    - eapply frame_outside; eauto.
  Qed.

  Lemma kstep_part j w i w0 st st' : kstep j w st st' -> ((i < j)%nat \/ i = j /\ (w0 <= w)%nat) ->
    part i w0 st -> part i w0 st'.
  Proof.
    intros (e & nd & Hj & Hinv & Hf & Hd & Hp) Hi H e1 D l Hn Ho Hl Hw.
    destruct (H e1 D l Hn Ho Hl Hw) as (c & Hv & Hlen & Hpre).
    destruct Hi as [Hi|[-> Hw0]].
    - assert (Hne : kl_of L e <> Some l) by (exact (Hl j (e, nd) ltac:(lia) Hj)).
      destruct (Hf l Hne) as [Heq|(l1 & _ & _ & Hnone & _)]; [|congruence].
      exists c. rewrite Heq. auto.
    - assert (e1 = e) by congruence. subst e1.
      destruct (Hp l c w0 Ho Hv ltac:(lia) Hlen) as (c' & Hv' & Hlen' & Hpre').
      exists c'. splits; auto. congruence.
  Qed.

  Lemma kstep_refl j w st e nd : nth_error items j = Some (e, nd) -> kl_inv L st -> kstep j w st st.
  Proof.
    intros Hj Hi. exists e, nd. splits; auto.
    - intros l' _. left. reflexivity.
    - intros l c n Ho Hv Hn Hc. exists c. auto.
  Qed.

  Lemma kstep_views j w st st' e nd : nth_error items j = Some (e, nd) -> kl_inv L st' ->
    (forall l, view st' l = view st l) -> kstep j w st st'.
  Proof.
    intros Hj Hi Hv. exists e, nd. splits; auto.
    - intros l' _. left. apply Hv.
    - intros. rewrite Hv. assumption.
    - intros l c n Ho Hvv Hn Hc. exists c. rewrite Hv. auto.
  Qed.

  Lemma part_0 j st : part j 0 st.
  Proof. intros e D l _ _ _ H. lia. Qed.

  (** ** The individual operations. [e] is the item's entry, whatever its
      WriteOffset. *)
  Context (j : nat) (e : entry) (nd : node) (Hj : nth_error items j = Some (e, nd)).

  Lemma valid_j w : kl_valid L (set_woff e w).
  Proof. apply kl_valid_woff. exact (proj1 Hvalid _ (nth_error_In _ _ Hj)). Qed.

  Lemma mkdir_step st st' r w : kl_inv L st -> en_kind e = EkDir -> k_mkdir SK st (set_woff e w) = (st', r) ->
    kstep j 0 st st' /\ (kl_clean L st -> kl_clean L st' /\ r = None) /\
    (r = None -> nd = NDir -> settled j st -> settled (S j) st').
  Proof.
    intros Hi Hk Hop.
    destruct (kl_mkdir _ L _ _ _ _ Hi (valid_j w) Hk Hop) as (I & F & Hc & Hdir & Hok).
    rewrite kl_of_woff in *.
    assert (Hks : kstep j 0 st st').
    { exists e, nd. splits; auto. intros; lia. }
    splits; auto.
    intros -> -> Hs. pose proof (kstep_settled _ _ _ _ _ Hks (Nat.le_refl _) Hs) as (A & B & C).
    unfold settled. splits; auto.
    - intros i e1 nd1 l Hlt Hn Ho Hl. destruct (Nat.eq_dec i j) as [->|]; [|eapply A; eauto; lia].
      assert (e1 = e /\ nd1 = NDir) as [-> ->] by (split; congruence). exact (proj1 (Hok eq_refl l Ho)).
    - intros i e1 nd1 l l' Hlt Hn Ho Ha. destruct (Nat.eq_dec i j) as [->|]; [|eapply B; eauto; lia].
      assert (e1 = e) as -> by congruence. exact (proj2 (Hok eq_refl l Ho) l' Ha).
  Qed.

  Lemma symlink_step st st' r w t : kl_inv L st -> en_kind e = EkSymlink -> k_symlink SK st (set_woff e w) t = (st', r) ->
    kstep j 0 st st' /\ (kl_clean L st -> kl_clean L st' /\ (kl_vlink L e t -> r = None)) /\
    (r = None -> nd = NLink t -> settled j st -> settled (S j) st').
  Proof.
    intros Hi Hk Hop.
    destruct (kl_symlink _ L _ _ _ _ _ Hi (valid_j w) Hk Hop) as (I & F & Hc & Hok).
    rewrite kl_of_woff in *.
    assert (Hks : kstep j 0 st st').
    { exists e, nd. splits; auto; try (intros; lia). congruence. }
    splits; auto.
    - intros Hcl. destruct (Hc Hcl). split; auto. intros; auto using kl_vlink_woff.
    - intros -> -> Hs. pose proof (kstep_settled _ _ _ _ _ Hks (Nat.le_refl _) Hs) as (A & B & C).
      unfold settled. splits; auto.
      + intros i e1 nd1 l Hlt Hn Ho Hl. destruct (Nat.eq_dec i j) as [->|]; [|eapply A; eauto; lia].
        assert (e1 = e /\ nd1 = NLink t) as [-> ->] by (split; congruence). exact (proj1 (Hok eq_refl l Ho)).
      + intros i e1 nd1 l l' Hlt Hn Ho Ha. destruct (Nat.eq_dec i j) as [->|]; [|eapply B; eauto; lia].
        assert (e1 = e) as -> by congruence. exact (proj2 (Hok eq_refl l Ho) l' Ha).
  Qed.

  Lemma prealloc_step st st' r w : kl_inv L st -> en_kind e = EkFile -> k_prealloc SK st (set_woff e w) = (st', r) ->
    kstep j 0 st st' /\ (kl_clean L st -> kl_clean L st' /\ r = None).
  Proof.
    intros Hi Hk Hop.
    destruct (kl_prealloc _ L _ _ _ _ Hi (valid_j w) Hk Hop) as (I & F & Hc).
    rewrite kl_of_woff in *. split; [|exact Hc].
    exists e, nd. splits; auto; try (intros; lia). congruence.
  Qed.

  (** ** Writing a file *)
  Context (D : bytes) (Hnd : nd = NFile D) (Hkind : en_kind e = EkFile).

  (** In the middle of writing item [j], [o] bytes in. *)
  Definition writing (w : k_w SK) (o : nat) (st : k_st SK) : Prop :=
    kl_inv L st /\ settled j st /\
    match kl_of L e with
    | Some l => kl_open L st w (Some l) o /\ kl_parents L st l /\
        (is_last j l -> (o <= length D)%nat -> view st l = Some (NFile (firstn o D)))
    | None => exists k, kl_open L st w None k
    end.

  Lemma getw_step st st' r w0 : kl_inv L st -> settled j st -> part j w0 st -> (w0 <= length D)%nat ->
    k_getw SK st (set_woff e (Z.of_nat w0)) = (st', r) ->
    kstep j w0 st st' /\
    match r with
    | Ok w => writing w w0 st' /\ (kl_clean L st -> kl_clean L st')
    | Err _ => ~ kl_clean L st
    | _ => False
    end.
  Proof.
    intros Hi Hs Hp Hw0 Hop.
    assert (Hfit : forall l, kl_of L (set_woff e (Z.of_nat w0)) = Some l -> exists c, kl_fits L l c /\ length c = Z.to_nat (en_woff (set_woff e (Z.of_nat w0)))).
    { intros l. rewrite kl_of_woff. intros Hl. cbn [en_woff set_woff]. rewrite Nat2Z.id. exists (firstn w0 D). rewrite firstn_length_le by lia.
      split; [|reflexivity]. rewrite Hnd in Hj. destruct (proj2 Hvalid j e D l Hj Hl) as [H|[_ H]]; apply H. }
    destruct (kl_getw _ L st (set_woff e (Z.of_nat w0)) st' r Hi (valid_j _) Hkind ltac:(cbn; lia) Hfit Hop) as (I & F & P & R).
    rewrite kl_of_woff in *. cbn [en_woff set_woff] in *. rewrite Nat2Z.id in *.
    assert (Hks : kstep j w0 st st').
    { exists e, nd. splits; auto.
      - congruence.
      - intros l c n Ho Hv Hn Hc. exact (P l c n Ho Hv ltac:(lia) Hc). }
    split; [exact Hks|].
    destruct r as [w|er| |]; auto. destruct R as (Hc & Ho & Hpar). split; [|exact Hc].
    unfold writing. splits; [exact I|exact (kstep_settled _ _ _ _ _ Hks (Nat.le_refl _) Hs)|].
    destruct (kl_of L e) as [l|] eqn:Hoe; [|eauto].
    splits; [exact Ho|exact (Hpar l eq_refl)|].
    intros Hl _. destruct (kl_open_file _ L _ _ _ _ I Ho) as (c' & Hv' & Hlen).
    rewrite Hv'. f_equal. f_equal.
    destruct (Nat.eq_dec w0 0) as [->|Hnz]; [destruct c'; [reflexivity|discriminate]|].
    rewrite Hnd in Hj. destruct (Hp e D l Hj Hoe Hl ltac:(lia)) as (c & Hv & Hcl & Hpre).
    destruct (P l c w0 eq_refl Hv (Nat.le_refl _) Hcl) as (c2 & Hv2 & Hl2 & Hp2).
    assert (c2 = c') by congruence. subst c2.
    rewrite <- Hpre, <- Hp2. rewrite firstn_all2; [reflexivity|lia].
  Qed.

  Lemma write_step w o st d st' n adv er : writing w o st -> d = slice D o (length d) -> (o + length d <= length D)%nat ->
    k_write SK st w d = (st', (n, adv, er)) ->
    kstep j o st st' /\ (n <= length d)%nat /\ (er = None -> n = length d) /\ (kl_clean L st -> kl_clean L st' /\ er = None) /\
    adv = (match kl_of L e with Some _ => Z.of_nat n | None => 0 end) /\ writing w (o + n) st'.
  Proof.
    intros (Hi & Hs & Hw) Hd Hlen Hop. unfold writing.
    destruct (kl_of L e) as [l|] eqn:Hoe.
    - destruct Hw as (Hop1 & Hpar & Hview).
      assert (Hfit : forall l' c, Some l = Some l' -> view st l' = Some (NFile c) -> kl_fits L l' (c ++ d)).
      { intros l' c [= <-] Hv. pose proof Hj as Hj'. rewrite Hnd in Hj'. destruct (proj2 Hvalid j e D l Hj' Hoe) as [H|[Hl H]]; [apply H|].
        rewrite (Hview Hl ltac:(lia)) in Hv. injection Hv as <-. rewrite Hd. unfold slice. rewrite <- firstn_split. apply H. }
      destruct (kl_write _ L _ _ _ _ _ _ _ _ _ Hi Hop1 Hfit Hop) as (I & Hn & He & Hc & -> & Hop2 & Hoth & Hown).
      destruct (kl_open_file _ L _ _ _ _ Hi Hop1) as (c & Hv & Hcl).
      assert (Hks : kstep j o st st').
      { exists e, nd. rewrite Hoe. splits; auto.
        - intros l' Hne. left. apply Hoth. congruence.
        - congruence.
        - intros l0 c0 n0 [= <-] Hv0 Hn0 Hc0. assert (c0 = c) by congruence. subst c0.
          exists (c ++ firstn n d). rewrite (Hown c Hv). splits; [reflexivity|rewrite app_length; lia|].
          rewrite firstn_app. replace (n0 - length c)%nat with 0%nat by lia. cbn. rewrite app_nil_r. reflexivity. }
      splits; auto.
      + exact (kstep_settled _ _ _ _ _ Hks (Nat.le_refl _) Hs).
      + intros l' Ha. destruct (kl_dec L l' l) as [->|Hne]; [|rewrite (Hoth l' Hne); auto].
        rewrite (Hpar l Ha) in Hv. discriminate.
      + intros Hl Hon. rewrite (Hview Hl ltac:(lia)) in Hv. injection Hv as <-.
        rewrite (Hown _ (Hview Hl ltac:(lia))). f_equal. f_equal.
        rewrite Hd. unfold slice. rewrite firstn_firstn, Nat.min_l by lia.
        symmetry. rewrite <- (firstn_skipn o D) at 1. rewrite firstn_app.
        rewrite firstn_length_le by lia. rewrite firstn_firstn. rewrite Nat.min_r by lia.
        replace (o + n - o)%nat with n by lia. reflexivity.
    - destruct Hw as (k & Hop1).
      destruct (kl_write _ L _ _ _ _ _ _ _ _ _ Hi Hop1 ltac:(discriminate) Hop) as (I & Hn & He & Hc & -> & Hop2 & Hoth).
      assert (Hks : kstep j o st st') by (eapply kstep_views; eauto).
      splits; auto; [exact (kstep_settled _ _ _ _ _ Hks (Nat.le_refl _) Hs)|eauto].
  Qed.

  Lemma sync_step w o st st' r : writing w o st -> k_sync SK st w = (st', r) ->
    kstep j o st st' /\ writing w o st' /\ (kl_clean L st -> kl_clean L st' /\ r = None).
  Proof.
    intros (Hi & Hs & Hw) Hop. unfold writing in *.
    assert (H : exists off, kl_open L st w (kl_of L e) off /\ match kl_of L e with Some _ => off = o | None => True end).
    { destruct (kl_of L e); [exists o; tauto|]. destruct Hw as (k & Hk); eauto. }
    destruct H as (off & Hop1 & Hoff).
    destruct (kl_sync _ L _ _ _ _ _ _ Hi Hop1 Hop) as (I & Hop2 & Hc & Hv).
    assert (Hks : kstep j o st st') by (eapply kstep_views; eauto).
    splits; auto; [exact (kstep_settled _ _ _ _ _ Hks (Nat.le_refl _) Hs)|].
    destruct (kl_of L e) as [l|]; [|eauto]. subst off. destruct Hw as (_ & Hpar & Hview).
    splits; auto.
    - intros l' Ha. rewrite Hv. auto.
    - intros. rewrite Hv. auto.
  Qed.

  Lemma closew_step w o st st' r : writing w o st -> k_closew SK st w = (st', r) ->
    kstep j o st st' /\ (kl_clean L st -> kl_clean L st') /\ (forall l, view st' l = view st l).
  Proof.
    intros (Hi & Hs & Hw) Hop.
    assert (H : exists off, kl_open L st w (kl_of L e) off).
    { destruct (kl_of L e); [exists o; tauto|]. destruct Hw as (k & Hk); eauto. }
    destruct H as (off & Hop1).
    destruct (kl_closew _ L _ _ _ _ _ _ Hi Hop1 Hop) as (I & Hc & Hv).
    splits; auto. eapply kstep_views; eauto.
  Qed.

  Lemma writing_part w o st : writing w o st -> (o <= length D)%nat -> part j o st.
  Proof.
    intros (Hi & Hs & Hw) Ho e1 D1 l Hn Hoe Hl Hpos.
    assert (e1 = e /\ D1 = D) as [-> ->] by (split; congruence).
    rewrite Hoe in Hw. destruct Hw as (_ & _ & Hv). exists (firstn o D). splits; auto.
    - rewrite firstn_length_le; lia.
    - rewrite firstn_firstn, Nat.min_id. reflexivity.
  Qed.

  Lemma writing_done w st : writing w (length D) st -> settled (S j) st.
  Proof.
    intros (Hi & (A & B & C) & Hw). unfold settled. splits; auto.
    - intros i e1 nd1 l Hlt Hn Ho Hl. destruct (Nat.eq_dec i j) as [->|]; [|eapply A; eauto; lia].
      assert (e1 = e /\ nd1 = NFile D) as [-> ->] by (split; congruence).
      rewrite Ho in Hw. destruct Hw as (_ & _ & Hv). rewrite (Hv Hl (Nat.le_refl _)). rewrite firstn_all. reflexivity.
    - intros i e1 nd1 l l' Hlt Hn Ho Ha. destruct (Nat.eq_dec i j) as [->|]; [|eapply B; eauto; lia].
      assert (e1 = e) as -> by congruence. rewrite Ho in Hw. destruct Hw as (_ & Hpar & _). exact (Hpar l' Ha).
  Qed.

  Lemma settled_views k st st' : (forall l, view st' l = view st l) -> settled k st -> settled k st'.
  Proof.
    intros Hv (A & B & C). unfold settled. splits; [|intros; rewrite Hv; eauto|intros l ? ?; rewrite Hv; auto].
    intros; rewrite Hv; eauto.
  Qed.
End Settle.

Lemma settled_extracted {SK} (L : sink_laws SK) items view0 st :
  settled L items view0 (length items) st -> extracted L items view0 st.
Proof.
  intros (A & B & C). unfold extracted. splits; auto.
  - intros i e nd l Hn Ho Hl. eapply A; eauto. apply nth_error_Some. congruence.
  - intros l ([e nd] & l1 & Hi & Ho & Ha) _. destruct (In_nth_error _ _ Hi) as (i & Hn).
    eapply B; eauto. apply nth_error_Some. congruence.
Qed.
