(** Loss_proofs.v -- what a power loss that obeys [loss_spares] preserves. *)
From Verif Require Import Base Base_proofs Source Sink SinkSpec Settle_proofs LossSpec.

Section Loss.
  Context {SK : sink} (L : sink_laws SK) (items : list item).
  Notation view := (kl_view L).
  Notation is_last := (is_last L items).

  Lemma nth_skipn_in {A} (l : list A) k j x : (k <= j)%nat -> nth_error l j = Some x -> In x (skipn k l).
  Proof.
    revert k j. induction l as [|a l IH]; intros k j H Hn; [destruct j; discriminate|].
    destruct k; [cbn [skipn]; eapply nth_error_In; exact Hn|]. destruct j; [lia|]. cbn [skipn nth_error] in *. eapply IH; [|exact Hn]. lia.
  Qed.
  Lemma in_skipn_nth {A} (l : list A) k x : In x (skipn k l) -> exists j, (k <= j)%nat /\ nth_error l j = Some x.
  Proof.
    revert k. induction l as [|a l IH]; intros k H; [destruct k; destruct H|].
    destruct k; [apply In_nth_error in H; destruct H as (j & H); exists j; split; [lia|exact H]|].
    cbn [skipn] in H. destruct (IH k H) as (j & H1 & H2). exists (S j). split; [lia|exact H2].
  Qed.
  Lemma nth_firstn_in {A} (l : list A) k j x : (j < k)%nat -> nth_error l j = Some x -> In x (firstn k l).
  Proof.
    revert k j. induction l as [|a l IH]; intros k j H Hn; [destruct j; discriminate|].
    destruct k; [lia|]. destruct j; cbn [firstn nth_error In] in *; [left; congruence|right; eapply IH; [|exact Hn]; lia].
  Qed.
  Lemma tl_skipn {A} (l : list A) k : tl (skipn k l) = skipn (S k) l.
  Proof. revert k. induction l as [|a l IH]; intros k; [destruct k; reflexivity|]. destruct k; [reflexivity|]. cbn [skipn]. rewrite IH. reflexivity. Qed.
  Lemma in_skipn {A} (l : list A) k x : In x (skipn k l) -> In x l.
  Proof. intros H. rewrite <- (firstn_skipn k l). apply in_or_app. right. exact H. Qed.
  Lemma in_firstn {A} (l : list A) k x : In x (firstn k l) -> In x l.
  Proof. intros H. rewrite <- (firstn_skipn k l). apply in_or_app. left. exact H. Qed.

  Lemma last_not_rest i k l : (i < k)%nat -> is_last i l -> ~ some_item_at L (skipn k items) l.
  Proof.
    intros Hi Hl (it & Hin & Ho). destruct (in_skipn_nth _ _ _ Hin) as (j & Hj & Hn). exact (Hl j it ltac:(lia) Hn Ho).
  Qed.

  Context (k : nat) (cur : option entry) (st st' : k_st SK).
  Hypothesis HL : loss_spares L (firstn k items) (skipn k items) cur st st'.

  Lemma loss_outside view0 : outside L items view0 st -> outside L items view0 st'.
  Proof.
    intros Ho l H1 H2. destruct HL as (A1 & _). rewrite A1; [exact (Ho l H1 H2)| |].
    - intros (it & Hin & Hit). apply H1. exists it. split; [exact (in_skipn _ _ _ Hin)|exact Hit].
    - right. intros (it & l1 & Hin & Hit). apply H2. exists it, l1. split; [exact (in_skipn _ _ _ Hin)|exact Hit].
  Qed.

  Lemma loss_settled view0 k' : (k' <= k)%nat -> settled L items view0 k' st -> settled L items view0 k' st'.
  Proof.
    intros Hk (S1 & S2 & S3). pose proof HL as (A1 & A2 & _). split; [|split].
    - intros i e nd l Hi Hn Ho Hlast. rewrite A1; [exact (S1 i e nd l Hi Hn Ho Hlast)| |].
      + exact (last_not_rest i k l ltac:(lia) Hlast).
      + left. exists (e, nd). split; [exact (nth_firstn_in _ k i _ ltac:(lia) Hn)|exact Ho].
    - intros i e nd l l' Hi Hn Ho Ha. apply A2; [|exact (S2 i e nd l l' Hi Hn Ho Ha)].
      exists (e, nd), l. split; [exact (nth_firstn_in _ k i _ ltac:(lia) Hn)|]. split; [exact Ho|exact Ha].
    - exact (loss_outside view0 S3).
  Qed.

  Lemma loss_part_done j w : (j < k)%nat -> part L items j w st -> part L items j w st'.
  Proof.
    intros Hj Hp e D l Hn Ho Hlast Hw. pose proof HL as (A1 & _). rewrite A1; [exact (Hp e D l Hn Ho Hlast Hw)| |].
    - exact (last_not_rest j k l Hj Hlast).
    - left. exists (e, NFile D). split; [exact (nth_firstn_in _ k j _ Hj Hn)|exact Ho].
  Qed.

  Lemma loss_part_cur w w' : (w' <= w)%nat ->
    (forall e nd, (0 < w)%nat -> nth_error items k = Some (e, nd) -> cur = Some (set_woff e (Z.of_nat w))) ->
    part L items k w st -> part L items k w' st'.
  Proof.
    intros Hw Hcur Hp e D l Hn Ho Hlast Hw'. destruct (Hp e D l Hn Ho Hlast ltac:(lia)) as (ct & C1 & C2 & C3).
    pose proof HL as (_ & _ & A3). specialize (Hcur e _ ltac:(lia) Hn).
    destruct (A3 _ l ct Hcur) as (ct' & D1 & D2 & D3).
    - rewrite kl_of_woff. exact Ho.
    - rewrite tl_skipn. exact (last_not_rest k (S k) l ltac:(lia) Hlast).
    - exact C1.
    - cbn [en_woff set_woff]. rewrite Nat2Z.id. exact C2.
    - cbn [en_woff set_woff] in D2, D3. rewrite Nat2Z.id in D2, D3. exists ct'. split; [exact D1|]. split; [lia|].
      rewrite <- (Nat.min_l w' w) by lia. rewrite <- !firstn_firstn. rewrite D3, C3. reflexivity.
  Qed.
End Loss.
