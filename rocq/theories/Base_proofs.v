(** Base_proofs.v -- lemmas about Base.v *)
From Verif Require Import Base.

(** split conjunctions that are syntactically there *)
Ltac splits := repeat match goal with |- _ /\ _ => split end.

Lemma beqb_eq a b : beqb a b = true <-> a = b.
Proof. apply Ascii.eqb_eq. Qed.

Lemma bytes_eqb_eq a : forall b, bytes_eqb a b = true <-> a = b.
Proof.
  induction a as [|x a IH]; intros [|y b]; simpl; split; intro H; try congruence.
  - apply andb_true_iff in H. destruct H as [H1 H2]. apply beqb_eq in H1. apply IH in H2. congruence.
  - inversion H; subst. apply andb_true_iff. split; [apply beqb_eq; reflexivity | apply IH; reflexivity].
Qed.

Lemma bytes_eqb_refl a : bytes_eqb a a = true.
Proof. apply bytes_eqb_eq. reflexivity. Qed.

Lemma bytes_eqb_neq a b : bytes_eqb a b = false <-> a <> b.
Proof.
  destruct (bytes_eqb a b) eqn:E.
  - apply bytes_eqb_eq in E. split; congruence.
  - split; [|reflexivity]. intros _ H. apply bytes_eqb_eq in H. congruence.
Qed.

Lemma bytes_eq_dec (a b : bytes) : {a = b} + {a <> b}.
Proof.
  destruct (bytes_eqb a b) eqn:E; [left; apply bytes_eqb_eq; exact E | right; apply bytes_eqb_neq; exact E].
Qed.

Lemma gerr_eqb_eq a b : gerr_eqb a b = true <-> a = b.
Proof.
  destruct a, b; simpl; split; intro H; try congruence; try reflexivity.
  - apply Nat.eqb_eq in H. congruence.
  - inversion H. apply Nat.eqb_refl.
Qed.

Lemma wrap64_id z : is_int64 z -> wrap64 z = z.
Proof.
  unfold is_int64, wrap64, two63, two64. intros H.
  rewrite Z.mod_small by lia. lia.
Qed.

Lemma wrap64_range z : is_int64 (wrap64 z).
Proof.
  unfold is_int64, wrap64, two63, two64.
  pose proof (Z.mod_pos_bound (z + 9223372036854775808) 18446744073709551616). lia.
Qed.

Section Slice.
  Context {A : Type}.
  Implicit Types d : list A.

  Lemma slice_0 d o : slice d o 0 = [].
  Proof. reflexivity. Qed.

  Lemma slice_length d o n : (o + n <= length d)%nat -> length (slice d o n) = n.
  Proof. unfold slice. intros H. rewrite firstn_length, skipn_length. lia. Qed.

  Lemma slice_length_le d o n : (length (slice d o n) <= n)%nat.
  Proof. unfold slice. rewrite firstn_length. lia. Qed.

  Lemma slice_length_le2 d o n : (length (slice d o n) <= length d - o)%nat.
  Proof. unfold slice. rewrite firstn_length, skipn_length. lia. Qed.

  Lemma skipn_skipn' n m d : skipn n (skipn m d) = skipn (m + n) d.
  Proof. revert d; induction m as [|m IH]; intros d; [reflexivity|]. destruct d; [now rewrite !skipn_nil|]. simpl. apply IH. Qed.

  Lemma firstn_split n m d : firstn (n + m) d = firstn n d ++ firstn m (skipn n d).
  Proof.
    revert d; induction n as [|n IH]; intros d; [reflexivity|].
    destruct d as [|x d]; simpl; [now rewrite firstn_nil|]. f_equal. apply IH.
  Qed.

  Lemma slice_app d o n m : slice d o (n + m) = slice d o n ++ slice d (o + n) m.
  Proof. unfold slice. rewrite firstn_split, skipn_skipn'. reflexivity. Qed.

  Lemma slice_slice d o n o' n' : (o' + n' <= n)%nat -> slice (slice d o n) o' n' = slice d (o + o') n'.
  Proof.
    unfold slice. intros H.
    rewrite skipn_firstn_comm, firstn_firstn, skipn_skipn'.
    replace (Nat.min n' (n - o')) with n' by lia. reflexivity.
  Qed.

  Lemma slice_all d : slice d 0 (length d) = d.
  Proof. unfold slice. simpl. apply firstn_all. Qed.

  Lemma slice_over d o n : (length d <= o + n)%nat -> slice d o n = skipn o d.
  Proof. unfold slice. intros H. apply firstn_all2. rewrite skipn_length. lia. Qed.

  Lemma slice_nil_iff d o n : slice d o n = [] <-> (n = 0 \/ length d <= o)%nat.
  Proof.
    unfold slice. split.
    - intros H. apply (f_equal (@length A)) in H. rewrite firstn_length, skipn_length in H. simpl in H. lia.
    - intros [->|H]; [reflexivity|]. rewrite skipn_all2 by lia. apply firstn_nil.
  Qed.

  Lemma slice_cons d o n x : nth_error d o = Some x -> slice d o (S n) = x :: slice d (S o) n.
  Proof.
    revert d; induction o as [|o IH]; intros [|y d] H; simpl in H; try discriminate.
    - injection H as ->. reflexivity.
    - specialize (IH _ H). exact IH.
  Qed.

  Lemma slice_1 d o x : slice d o 1 = [x] <-> nth_error d o = Some x.
  Proof.
    revert d; induction o as [|o IH]; intros [|y d]; unfold slice in *; simpl; try (split; congruence).
    apply IH.
  Qed.

  Lemma firstn_slice d n : firstn n d = slice d 0 n.
  Proof. reflexivity. Qed.

  Lemma skipn_app_exact n (a b : list A) : length a = n -> skipn n (a ++ b) = b.
  Proof. intros <-. rewrite skipn_app, skipn_all, Nat.sub_diag. reflexivity. Qed.

  Lemma firstn_app_exact n (a b : list A) : length a = n -> firstn n (a ++ b) = a.
  Proof. intros <-. rewrite firstn_app, firstn_all, Nat.sub_diag. simpl. apply app_nil_r. Qed.

  Lemma skipn_slice_app d o n : (o + n <= length d)%nat -> skipn o d = slice d o n ++ skipn (o + n) d.
  Proof. intros H. unfold slice. rewrite <- skipn_skipn'. symmetry. apply firstn_skipn. Qed.
End Slice.
