(** Folder_proofs.v -- what FolderSink's operations do to the destination. *)
From Verif Require Import Base Base_proofs Path PathSpec Path_proofs Source Sink SinkSpec FS FS_proofs FolderSink FSteps_proofs FSLex_proofs FolderSpec.

(** ** calls on open files *)
Definition others (s s' : fsys) (h i : nat) : Prop :=
  f_tree s' = f_tree s /\ (forall j, j <> i -> f_ino s' j = f_ino s j) /\ f_next s' = f_next s /\
  (forall j, j <> h -> f_hand s' j = f_hand s j) /\ f_nexth s' = f_nexth s /\ f_wd s' = f_wd s /\ f_umask s' = f_umask s /\
  (clean s -> clean s').

Lemma others_trans a b c h i : others a b h i -> others b c h i -> others a c h i.
Proof.
  intros (A1 & A2 & A3 & A4 & A5 & A6 & A7 & A8) (B1 & B2 & B3 & B4 & B5 & B6 & B7 & B8). unfold others. splits; try congruence; auto.
  - intros j Hj. rewrite B2, A2; auto.
  - intros j Hj. rewrite B4, A4; auto.
Qed.

Ltac fin := first
  [ intros ? Hj; rewrite (proj2 (Nat.eqb_neq _ _) Hj); reflexivity
  | match goal with E0 : f_orc ?s 0%nat = Some _ |- _ => let H := fresh in intros H; rewrite H in E0; discriminate end
  | right; split; [discriminate|assumption || reflexivity]
  | left; splits; auto; lia
  | let H := fresh in intros H; rewrite H; reflexivity ].

Lemma f_chmod_spec s h x m s' r : f_hand s h = Some x -> f_chmod s h m = (s', r) ->
  others s s' h (h_ino x) /\ f_hand s' h = Some x /\ i_data (f_ino s' (h_ino x)) = i_data (f_ino s (h_ino x)) /\ i_dur (f_ino s' (h_ino x)) = i_dur (f_ino s (h_ino x)) /\
  (r = None -> i_mode (f_ino s' (h_ino x)) = perm m) /\ (clean s -> r = None).
Proof.
  intros Hx. unfold f_chmod, on_file. rewrite Hx. unfold tick. intros E.
  destruct (f_orc s 0) eqn:E0; injection E as <- <-; unfold others, clean; cbn; rewrite ?Nat.eqb_refl; splits; auto; try congruence; try discriminate.
  all: fin.
Qed.

Lemma f_seek_spec s h x off s' r : f_hand s h = Some x -> f_seek s h off = (s', r) ->
  others s s' h (h_ino x) /\ f_ino s' = f_ino s /\
  (r = None /\ 0 <= off /\ f_hand s' h = Some (MkH (h_ino x) (Z.to_nat off)) \/ r <> None /\ f_hand s' h = Some x) /\ (clean s -> 0 <= off -> r = None).
Proof.
  intros Hx. unfold f_seek, on_file. rewrite Hx. unfold tick. intros E.
  destruct (f_orc s 0) eqn:E0; [|destruct (off <? 0) eqn:Eo]; injection E as <- <-; unfold others, clean; cbn; rewrite ?Nat.eqb_refl; splits; auto; try congruence; try lia.
  all: fin.
Qed.

Lemma f_truncate_spec s h x n s' r : f_hand s h = Some x -> f_truncate s h n = (s', r) ->
  others s s' h (h_ino x) /\ f_hand s' h = Some x /\ i_mode (f_ino s' (h_ino x)) = i_mode (f_ino s (h_ino x)) /\
  (r = None /\ 0 <= n /\ i_data (f_ino s' (h_ino x)) = zfit (Z.to_nat n) (i_data (f_ino s (h_ino x))) \/ r <> None /\ f_ino s' = f_ino s) /\ (clean s -> 0 <= n -> r = None).
Proof.
  intros Hx. unfold f_truncate, on_file. rewrite Hx. unfold tick. intros E.
  destruct (f_orc s 0) eqn:E0; [|destruct (n <? 0) eqn:Eo]; injection E as <- <-; unfold others, clean; cbn; rewrite ?Nat.eqb_refl; splits; auto; try congruence; try lia.
  all: fin.
Qed.

Lemma zfit_length n d : length (zfit n d) = n.
Proof. unfold zfit. rewrite app_length, firstn_length, repeat_length. lia. Qed.
Lemma zfit_all n d : length d = n -> zfit n d = d.
Proof. intros <-. unfold zfit. rewrite firstn_all, Nat.sub_diag. cbn. apply app_nil_r. Qed.
Lemma zfit_prefix n w d : (n <= w)%nat -> (n <= length d)%nat -> firstn n (zfit w d) = firstn n d.
Proof.
  intros H1 H2. unfold zfit. rewrite firstn_app, firstn_firstn, firstn_length. rewrite Nat.min_l by lia.
  replace (n - Nat.min w (length d))%nat with 0%nat by lia. cbn. apply app_nil_r.
Qed.
Lemma overwrite_end c d : overwrite c (length c) d = c ++ d.
Proof. unfold overwrite. rewrite zfit_all by reflexivity. rewrite skipn_all2 by lia. rewrite app_nil_r. reflexivity. Qed.

Lemma f_write_spec s h x d s' n r : f_hand s h = Some x -> f_write s h d = (s', (n, r)) ->
  others s s' h (h_ino x) /\ (n <= length d)%nat /\ (r = None -> n = length d) /\ (clean s -> r = None) /\
  f_hand s' h = Some (MkH (h_ino x) (h_pos x + n)) /\ i_mode (f_ino s' (h_ino x)) = i_mode (f_ino s (h_ino x)) /\ i_dur (f_ino s' (h_ino x)) = i_dur (f_ino s (h_ino x)) /\
  (n = 0%nat -> f_ino s' = f_ino s) /\
  (n <> 0%nat -> i_data (f_ino s' (h_ino x)) = overwrite (i_data (f_ino s (h_ino x))) (h_pos x) (firstn n d)).
Proof.
  intros Hx. unfold f_write, on_file. rewrite Hx. unfold tick. intros E.
  set (d' := match f_orc s 0 with Some f => firstn (fl_n f) d | None => d end) in *.
  assert (Hd : d' = firstn (length d') d).
  { unfold d'. destruct (f_orc s 0) as [f|]; [|rewrite firstn_all; reflexivity]. rewrite firstn_length.
    destruct (Nat.le_ge_cases (fl_n f) (length d)) as [H|H].
    - rewrite Nat.min_l by lia. reflexivity.
    - rewrite Nat.min_r by lia. rewrite !firstn_all2 by lia. reflexivity. }
  assert (Hl : (length d' <= length d)%nat) by (rewrite Hd, firstn_length; lia).
  assert (Hr : r = None -> length d' = length d).
  { intros ->. unfold d'. destruct (f_orc s 0); [|reflexivity]. destruct (firstn _ _); injection E; discriminate. }
  assert (Hc : clean s -> r = None).
  { intros H. rewrite (H 0%nat) in E. destruct d'; injection E; auto. }
  clearbody d'; destruct d' as [|b d1]; injection E as <- <- <-; unfold others, clean; cbn [f_tree f_ino f_next f_hand f_nexth f_wd f_umask f_orc set_hand set_ino with_hand with_ino with_orc length]; rewrite ?Nat.eqb_refl; splits; auto; try congruence.
  - rewrite Hx. destruct x. cbn. f_equal. f_equal. lia.
  - intros j Hj. rewrite (proj2 (Nat.eqb_neq _ _) Hj). reflexivity.
  - intros j Hj. rewrite (proj2 (Nat.eqb_neq _ _) Hj). reflexivity.
  - intros _. cbn [i_data]. change (S (length d1)) with (length (b :: d1)). rewrite <- Hd. reflexivity.
Qed.

Lemma f_sync_spec s h x s' r : f_hand s h = Some x -> f_sync s h = (s', r) ->
  others s s' h (h_ino x) /\ f_hand s' h = Some x /\ i_data (f_ino s' (h_ino x)) = i_data (f_ino s (h_ino x)) /\
  i_mode (f_ino s' (h_ino x)) = i_mode (f_ino s (h_ino x)) /\
  (r = None -> i_dur (f_ino s' (h_ino x)) = i_data (f_ino s (h_ino x))) /\ (clean s -> r = None).
Proof.
  intros Hx. unfold f_sync, on_file. rewrite Hx. unfold tick. intros E.
  destruct (f_orc s 0) eqn:E0; injection E as <- <-; unfold others, clean; cbn; rewrite ?Nat.eqb_refl; splits; auto; try congruence; try discriminate.
  all: fin.
Qed.

Lemma f_close_spec s h x s' r : f_hand s h = Some x -> f_close s h = (s', r) ->
  others s s' h (h_ino x) /\ f_ino s' = f_ino s /\ f_hand s' h = None /\ (clean s -> r = None).
Proof.
  intros Hx. unfold f_close, on_file. rewrite Hx. unfold tick. intros E. injection E as <- <-; unfold others, clean; cbn; rewrite ?Nat.eqb_refl; splits; auto; try congruence.
  all: fin.
Qed.
Lemma f_close_any s h s' r : f_close s h = (s', r) ->
  f_tree s' = f_tree s /\ f_ino s' = f_ino s /\ f_next s' = f_next s /\ (forall j, j <> h -> f_hand s' j = f_hand s j) /\ f_hand s' h = None /\
  f_nexth s' = f_nexth s /\ f_wd s' = f_wd s /\ f_umask s' = f_umask s /\ (clean s -> clean s').
Proof.
  intros E. destruct (f_hand s h) as [x|] eqn:Hx.
  - destruct (f_close_spec s h x s' r Hx E) as ((A1 & A2 & A3 & A4 & A5 & A6 & A7 & A8) & B & C & D). splits; auto.
  - unfold f_close, on_file in E. rewrite Hx in E. injection E as <- <-. splits; auto.
Qed.

Lemma ox_preallocate_spec s h x size s' r : f_hand s h = Some x -> ox_preallocate s h size = (s', r) ->
  others s s' h (h_ino x) /\ f_hand s' h = Some x /\ i_mode (f_ino s' (h_ino x)) = i_mode (f_ino s (h_ino x)) /\ i_dur (f_ino s' (h_ino x)) = i_dur (f_ino s (h_ino x)) /\
  (exists n, i_data (f_ino s' (h_ino x)) = i_data (f_ino s (h_ino x)) ++ repeat zero n /\ (n <= Z.to_nat size - length (i_data (f_ino s (h_ino x))))%nat /\
     (r = None -> n = Z.to_nat size - length (i_data (f_ino s (h_ino x))))%nat) /\ (clean s -> r = None).
Proof.
  intros Hx. unfold ox_preallocate, on_file. rewrite Hx. unfold tick. intros E.
  injection E as <- <-; unfold others, clean; cbn; rewrite ?Nat.eqb_refl; splits; auto; try congruence.
  - intros j Hj. rewrite (proj2 (Nat.eqb_neq _ _) Hj). reflexivity.
  - eexists. splits; [reflexivity| |].
    + destruct (f_orc s 0); lia.
    + destruct (f_orc s 0); [discriminate|reflexivity].
  - intros H. rewrite H. reflexivity.
Qed.

Lemma legacy_preallocate_spec s h x size s' r : f_hand s h = Some x -> legacy_preallocate s h size = (s', r) ->
  others s s' h (h_ino x) /\ (exists p, f_hand s' h = Some (MkH (h_ino x) p)) /\ i_mode (f_ino s' (h_ino x)) = i_mode (f_ino s (h_ino x)) /\ i_dur (f_ino s' (h_ino x)) = i_dur (f_ino s (h_ino x)) /\
  (exists n, i_data (f_ino s' (h_ino x)) = i_data (f_ino s (h_ino x)) ++ repeat zero n /\ (n <= Z.to_nat size - length (i_data (f_ino s (h_ino x))))%nat /\
     (r = None -> n = Z.to_nat size - length (i_data (f_ino s (h_ino x))))%nat) /\ (clean s -> r = None).
Proof.
  intros Hx. unfold legacy_preallocate. rewrite Hx. set (len := length (i_data (f_ino s (h_ino x)))).
  destruct (f_seek s h (Z.of_nat len)) as [s1 r1] eqn:E1. apply (f_seek_spec s h x) in E1; [|exact Hx]. destruct E1 as (A1 & A2 & A3 & A4).
  assert (Hz : forall c : bytes, exists n, c = c ++ repeat zero n /\ n = 0%nat) by (intros c; exists 0%nat; cbn; rewrite app_nil_r; auto).
  destruct A3 as [(-> & _ & A3)|[A3 A3']].
  2:{ destruct r1 as [e1|]; [|congruence]. intros E. injection E as <- <-. rewrite A2.
      splits; auto; [exists (h_pos x); destruct x; exact A3'| |].
      - exists 0%nat. cbn. rewrite app_nil_r. splits; [reflexivity|lia|discriminate].
      - intros Hc. discriminate (A4 Hc ltac:(lia)). }
  rewrite Nat2Z.id in A3. destruct (0 <? size - Z.of_nat len) eqn:Es.
  2:{ intros E. injection E as <- <-. rewrite A2. splits; eauto. exists 0%nat. cbn. rewrite app_nil_r. splits; [reflexivity|lia|lia]. }
  destruct (f_write s1 h (repeat zero (Z.to_nat (size - Z.of_nat len)))) as [s2 [n2 r2]] eqn:E2.
  eapply f_write_spec in E2; [|exact A3]. cbn [h_ino h_pos] in E2. destruct E2 as (B1 & B2 & B3 & B4 & B5 & B6 & B7 & B8 & B9).
  intros E. injection E as <- <-. rewrite repeat_length in *. rewrite A2 in *. splits; eauto.
  - eapply others_trans; eassumption.
  - exists n2. splits; [|lia|].
    + destruct (Nat.eq_dec n2 0) as [->|Hn]; [rewrite B8 by reflexivity; cbn; rewrite app_nil_r; reflexivity|].
      rewrite B9 by exact Hn. unfold len. rewrite overwrite_end. f_equal.
      assert (Hrep : forall a b, (a <= b)%nat -> firstn a (repeat zero b) = repeat zero a).
      { clear. induction a; intros b Hb; [reflexivity|]. destruct b; [lia|]. cbn. rewrite IHa by lia. reflexivity. }
      apply Hrep. exact B2.
    + intros Hn. destruct r2; [discriminate|]. rewrite B3 by reflexivity. lia.
  - intros Hc. rewrite B4; [reflexivity|]. apply A1. exact Hc.
Qed.

(** ** createFile *)
Record created (dst : loc) (s s' : fsys) : Prop := {
  cr_frame : forall q, q <> dst -> f_tree s' q = f_tree s q \/ (at_or_below q dst /\ f_tree s q = None /\ exists m, f_tree s' q = Some (FDir m));
  cr_node : f_tree s' dst = f_tree s dst \/ (f_tree s dst = None \/ exists t, f_tree s dst = Some (FLink t)) /\
     (f_tree s' dst = None \/ f_tree s' dst = Some (FFile (f_next s)));
  cr_data : forall i, (i < f_next s)%nat -> i_data (f_ino s' i) = i_data (f_ino s i) /\ i_dur (f_ino s' i) = i_dur (f_ino s i);
  cr_ino : forall i, (i < f_next s)%nat -> f_tree s dst <> Some (FFile i) -> f_ino s' i = f_ino s i;
  cr_next : f_next s' = f_next s \/ f_next s' = S (f_next s) /\ f_tree s' dst = Some (FFile (f_next s));
  cr_fresh : f_tree s' dst = Some (FFile (f_next s)) -> f_next s' = S (f_next s) \/ f_tree s dst = Some (FFile (f_next s));
  cr_new : f_next s' = S (f_next s) -> i_data (f_ino s' (f_next s)) = [] /\ i_dur (f_ino s' (f_next s)) = [];
  cr_hand : forall j, (j < f_nexth s)%nat -> f_hand s' j = f_hand s j;
  cr_handn : (f_nexth s' = f_nexth s \/ f_nexth s' = S (f_nexth s)) /\ (forall j, (f_nexth s' <= j)%nat -> f_hand s' j = f_hand s j);
  cr_wd : f_wd s' = f_wd s /\ f_umask s' = f_umask s;
  cr_clean : clean s -> clean s';
  cr_rooted : rooted s';
  cr_parcl : parcl s' }.

Definition cr_step (dst : loc) (s s' : fsys) : Prop :=
  forall q, q <> dst -> f_tree s' q = f_tree s q \/ (at_or_below q dst /\ f_tree s q = None /\ exists m, f_tree s' q = Some (FDir m)).

Lemma created_keeps dst s s' : keeps s s' -> cr_step dst s s' ->
  (f_tree s' dst = f_tree s dst \/ (exists t, f_tree s dst = Some (FLink t)) /\ f_tree s' dst = None) ->
  (forall i, f_tree s dst = Some (FFile i) -> (i < f_next s)%nat) -> rooted s' -> parcl s' -> created dst s s'.
Proof.
  intros (K1 & K2 & K3 & K4 & K5 & K6 & K7) Hf Hnd Hi Hro Hpc. constructor; auto.
  - destruct Hnd as [H|[H1 H2]]; [left; exact H|right; auto].
  - intros i _. rewrite K1. auto.
  - intros i _ _. rewrite K1. reflexivity.
  - intros H. destruct Hnd as [H'|[_ H']]; rewrite H' in H; [right; exact H|discriminate].
  - intros H. lia.
  - intros j _. rewrite K3. reflexivity.
  - split; [left; exact K4|]. intros j _. rewrite K3. reflexivity.
Qed.

(** changing only the mode of the file at dst, or of a new file *)
Lemma created_chmod dst s s1 s2 h i : created dst s s1 -> others s1 s2 h i -> f_hand s2 h = f_hand s1 h ->
  f_tree s1 dst = Some (FFile i) -> (f_tree s dst = Some (FFile i) \/ (f_next s <= i)%nat) ->
  i_data (f_ino s2 i) = i_data (f_ino s1 i) -> i_dur (f_ino s2 i) = i_dur (f_ino s1 i) -> created dst s s2.
Proof.
  intros [A1 A2 A3 A4 A5 A6 AN A7 A8 A9 A10 A11 A12] (B1 & B2 & B3 & B4 & B5 & B6 & B7 & B8) Hh Ht Hi Hd Hu.
  assert (Hh' : forall j, f_hand s2 j = f_hand s1 j) by (intros j; destruct (Nat.eq_dec j h) as [->|Hj]; [exact Hh|apply B4; exact Hj]).
  constructor; unfold rooted, parcl, alldirs in *; rewrite ?B1, ?B3, ?B5, ?B6, ?B7; auto.
  - intros j Hj. destruct (A3 j Hj) as [C1 C2]. destruct (Nat.eq_dec j i) as [->|Hne]; [rewrite Hd, Hu; auto|]. rewrite B2 by exact Hne. auto.
  - intros j Hj Hn. rewrite B2; [apply A4; assumption|]. intros ->. destruct Hi as [Hi|Hi]; [congruence|lia].
  - intros H. destruct (AN H) as [C1 C2]. destruct (Nat.eq_dec (f_next s) i) as [Hq|Hne]; [rewrite Hq in *; rewrite Hd, Hu; auto|]. rewrite B2 by exact Hne. auto.
  - intros j Hj. rewrite Hh'. auto.
  - split; [apply A8|]. intros j Hj. rewrite Hh'. apply A8. exact Hj.
Qed.

Lemma below_strict a b : at_or_below a b -> a <> b -> ~ at_or_below b a.
Proof. intros H1 Hn H2. apply Hn. apply below_antisym; assumption. Qed.
Lemma parcl_below s l q : parcl s -> (forall m, f_tree s l <> Some (FDir m)) -> at_or_below l q -> q <> l -> f_tree s q = None.
Proof.
  intros Hp Hd Hb Hne. destruct (f_tree s q) eqn:E; [|reflexivity].
  destruct (Hp q ltac:(congruence) l Hb (not_eq_sym Hne)) as [m Hm]. exfalso. eapply Hd; eauto.
Qed.

(** what createFile does, at a location whose parents are directories or
    missing and that is not a symlink (or no system call fails) *)
Lemma create_file_lex c s e dst s' r :
  dest_path (fc_wd c) (fc_dir c) (en_path e) = Ok (render dst) ->
  rooted s -> parcl s -> Forall normal dst -> dst <> [] -> passable s dst ->
  (forall i, f_tree s dst = Some (FFile i) -> (i < f_next s)%nat) ->
  (forall t, f_tree s dst <> Some (FLink t)) \/ clean s ->
  create_file c s e = (s', r) ->
  created dst s s' /\ ((exists h, r = Ok h) \/ exists x, r = Err x) /\
  (forall h, r = Ok h -> h = f_nexth s /\ f_nexth s' = S h /\ alldirs s' dst /\
     exists i, f_hand s' h = Some (MkH i 0) /\ f_tree s' dst = Some (FFile i) /\
       (f_tree s dst = Some (FFile i) \/
        (f_tree s dst = None \/ exists t, f_tree s dst = Some (FLink t)) /\ i = f_next s /\ f_next s' = S i /\ i_data (f_ino s' i) = [] /\ i_dur (f_ino s' i) = []) /\
       (clean s -> i_mode (f_ino s' i) = match f_tree s dst with
          | None => Z.land (perm (Z.lor (en_mode e) mode_mask)) (Z.lnot (f_umask s)) | Some _ => perm (Z.lor (en_mode e) mode_mask) end)) /\
  (clean s -> (forall m, f_tree s dst <> Some (FDir m)) -> exists h, r = Ok h).
Proof.
  intros Hd Hro Hpc Hn Hne Hpa Hi Hlk. unfold create_file. rewrite Hd, (path_dir_render dst Hn).
  assert (Hn' : Forall normal (removelast dst)) by (apply Forall_removelast; exact Hn).
  assert (Hstrict : forall q, at_or_below q (removelast dst) -> at_or_below q dst /\ q <> dst).
  { intros q Hq. split; [eapply below_trans; [exact Hq|apply removelast_below]|]. intros ->.
    apply below_len in Hq. destruct dst as [|x d _] using rev_ind; [congruence|]. rewrite removelast_last, app_length in Hq. cbn in Hq. lia. }
  assert (Hna : nolink_at s (removelast dst)).
  { intros q t Hq E. destruct (Hstrict q Hq) as [Hq1 Hq2]. destruct (Hpa q _ Hq1 Hq2 E) as [m Hm]. discriminate. }
  destruct (os_mkdir_all s (render (removelast dst)) lucky_mode) as [s1 r1] eqn:E1.
  apply os_mkdir_all_lex in E1; auto. destruct E1 as (G1 & N1 & C1).
  assert (Hro1 : rooted s1) by (eapply grown_rooted; eauto).
  assert (Hpa1 : passable s1 dst) by (eapply grown_passable; eauto).
  assert (Hpc1 : parcl s1) by (apply G1; exact Hpc).
  assert (K1 : keeps s s1) by apply G1.
  assert (T1 : f_tree s1 dst = f_tree s dst).
  { destruct (proj2 G1 dst) as [H|(H & _)]; [exact H|]. destruct (Hstrict dst H) as [_ H2]. congruence. }
  assert (F1 : cr_step dst s s1).
  { intros q Hq. destruct (proj2 G1 q) as [H|(H & H')]; [auto|]. right. split; [apply Hstrict; exact H|exact H']. }
  assert (Cr1 : created dst s s1) by (apply created_keeps; auto).
  destruct r1 as [x|].
  { intros E. injection E as <- <-. splits; eauto; [discriminate|]. intros Hc _. exfalso. assert (X : Some x = None); [|discriminate]. apply C1; [exact Hc|].
    intros q n Hq E. destruct (Hstrict q Hq). eapply Hpa; eauto. }
  clear C1. assert (Hal1 : alldirs s1 dst).
  { destruct (N1 eq_refl) as [H1 H2]. destruct dst as [|x d _] using rev_ind; [congruence|]. rewrite removelast_last in *. apply alldirs_snoc. auto. }
  clear N1. assert (Ev0 : forall q, f_tree s1 q = None \/ True) by auto. clear Ev0.
  destruct (os_lstat s1 (render dst)) as [s2 st] eqn:E2. apply os_lstat_lex in E2; auto using passable_nolink.
  destruct E2 as (Q2 & S1 & S2 & S3 & S4).
  assert (K2 : keeps s s2) by (eapply keeps_trans; [exact K1|apply Q2]).
  assert (T2 : f_tree s2 dst = f_tree s dst) by (rewrite (proj2 Q2); exact T1).
  assert (F2 : cr_step dst s s2) by (unfold cr_step; rewrite (proj2 Q2); exact F1).
  assert (Hro2 : rooted s2) by (unfold rooted; rewrite (proj2 Q2); exact Hro1).
  assert (Hpa2 : passable s2 dst) by (unfold passable; rewrite (proj2 Q2); exact Hpa1).
  assert (Hpc2 : parcl s2) by (unfold parcl, alldirs; rewrite (proj2 Q2); exact Hpc1).
  assert (Hal2 : alldirs s2 dst) by (unfold alldirs; rewrite (proj2 Q2); exact Hal1).
  assert (Hcl2 : clean s -> clean s2) by apply K2.
  assert (Hst : forall n, st = Ok n -> f_tree s dst = Some n) by (intros n Hs; destruct (S1 n Hs); congruence).
  assert (Hst' : clean s -> forall n, f_tree s dst = Some n -> st = Ok n).
  { intros Hc n Hs. apply S2; [apply K1; exact Hc|exact Hal1|congruence]. }
  assert (Hst'' : clean s -> f_tree s dst = None -> exists x, st = Err x).
  { intros Hc Hs. apply S3; [apply K1; exact Hc|congruence]. }
  match goal with |- context [match st with Ok n => if is_link n then ?a else ?b | _ => _ end] =>
    destruct (match st with Ok n => if is_link n then a else b | _ => b end) as [s3 r3] eqn:E3 end.
  assert (M3 : keeps s s3 /\ cr_step dst s s3 /\ (f_tree s3 dst = f_tree s dst \/ (exists t, f_tree s dst = Some (FLink t)) /\ f_tree s3 dst = None) /\
    rooted s3 /\ parcl s3 /\ alldirs s3 dst /\ passable s3 dst /\ (r3 = None -> forall t, f_tree s3 dst <> Some (FLink t)) /\ (clean s -> r3 = None)).
  { destruct (match st with Ok n => is_link n | _ => false end) eqn:El.
    - destruct st as [n|x| |]; try discriminate. rewrite El in E3. apply os_remove_all_lex in E3; auto.
      destruct E3 as (R1 & R2 & R3 & R4 & R5). destruct n as [m|t|i]; try discriminate. specialize (Hst _ eq_refl).
      assert (Hbel : forall q, at_or_below dst q -> q <> dst -> f_tree s2 q = None).
      { intros q. apply parcl_below; [exact Hpc2|]. intros m. rewrite T2, Hst. discriminate. }
      assert (Heq : forall q, q <> dst -> f_tree s3 q = f_tree s2 q).
      { intros q Hq. destruct (R2 q) as [H|[H1 H2]]; [exact H|]. rewrite H2. symmetry. apply Hbel; assumption. }
      splits.
      + eapply keeps_trans; [exact K2|exact R1].
      + intros q Hq. rewrite (Heq q Hq). apply F2. exact Hq.
      + destruct (R2 dst) as [H|[_ H]]; [left; congruence|right; split; [eauto|exact H]].
      + destruct Hro2 as [m Hm]. exists m. rewrite Heq; [exact Hm|]. intros <-. contradiction.
      + auto.
      + intros q Hq Hq'. rewrite (Heq q Hq'). apply Hal2; assumption.
      + intros q n Hq Hq'. rewrite (Heq q Hq'). apply Hpa2; assumption.
      + intros Hr t'. rewrite (R3 Hr Hpc2 dst (below_refl dst)). discriminate.
      + intros Hc. apply R4. apply Hcl2. exact Hc.
    - assert (E3' : (s2, @None gerr) = (s3, r3)) by (destruct st as [n| | |]; try exact E3; rewrite El in E3; exact E3).
      injection E3' as <- <-. splits; auto. intros _ t Ht. rewrite T2 in Ht. destruct Hlk as [Hlk|Hc]; [eapply Hlk; eauto|].
      rewrite (Hst' Hc _ Ht) in El. discriminate. }
  clear E3. destruct M3 as (K3 & F3 & T3 & Hro3 & Hpc3 & Hal3 & Hpa3 & Hnl3 & Hc3).
  assert (Cr3 : created dst s s3) by (apply created_keeps; auto).
  destruct r3 as [x|].
  { intros E. injection E as <- <-. splits; eauto; [discriminate|]. intros Hc _. discriminate (Hc3 Hc). }
  specialize (Hnl3 eq_refl). set (mode := Z.lor (en_mode e) mode_mask) in *.
  destruct (os_open_create s3 (render dst) mode) as [s4 f] eqn:E4. apply os_open_lex in E4; auto.
  2:{ intros q t Hq E. destruct (loc_dec q dst) as [->|Hq']; [eapply Hnl3; eauto|]. destruct (Hal3 q Hq Hq') as [m Hm]. congruence. }
  destruct E4 as ((O1 & O2 & O3) & O4 & O5 & O6 & O7). pose proof K3 as (_ & KN & KH & KX & KW & KU & KC).
  destruct f as [h|x| |]; [|clear O4 O6|exfalso; destruct O4 as [[? ?]|[? ?]]; discriminate..].
  2:{ intros E. injection E as <- <-. specialize (O5 x eq_refl). splits; eauto.
      - apply created_keeps; auto.
        + eapply keeps_trans; [exact K3|apply O5].
        + unfold cr_step. rewrite (proj2 O5). exact F3.
        + rewrite (proj2 O5). exact T3.
        + unfold rooted. rewrite (proj2 O5). exact Hro3.
        + unfold parcl, alldirs. rewrite (proj2 O5). exact Hpc3.
      - discriminate.
      - intros Hc Hnd. destruct (O7 (KC Hc) Hal3) as [h Hh]; [|discriminate].
        intros m Hm. destruct T3 as [T3|[_ T3]]; rewrite T3 in Hm; [eapply Hnd; eauto|discriminate]. }
  clear O4 O5 O7. destruct (O6 h eq_refl) as (_ & Hh & Hnh & Hoh & i & Hhi & Hti & Hoq & Hoi & Hcase). clear O6.
  assert (Hcs : (f_tree s dst = Some (FFile i) /\ f_ino s4 i = f_ino s i /\ f_next s4 = f_next s) \/
    (f_tree s dst = None \/ exists t, f_tree s dst = Some (FLink t)) /\ i = f_next s /\ f_ino s4 i = MkIno [] [] (Z.land (perm mode) (Z.lnot (f_umask s))) /\ f_next s4 = S i).
  { destruct Hcase as [(C1 & C2 & C3)|(C1 & C2 & C3 & C4)].
    - left. rewrite C2, C3, KN, (proj1 K3). splits; auto. destruct T3 as [T3|[_ T3]]; congruence.
    - right. rewrite C3, KU. splits; auto; [|congruence]. destruct T3 as [T3|[T3 _]]; [left; congruence|right; exact T3]. }
  assert (Hal4 : alldirs s4 dst) by (intros q Hq Hq'; rewrite Hoq by exact Hq'; apply Hal3; assumption).
  assert (Hro4 : rooted s4). { destruct Hro3 as [m Hm]. exists m. rewrite Hoq; [exact Hm|auto]. }
  assert (Hpc4 : parcl s4).
  { intros q Hq. destruct (loc_dec q dst) as [->|Hq']; [exact Hal4|]. rewrite Hoq in Hq by exact Hq'. intros p Hp Hp'.
    destruct (loc_dec p dst) as [->|Hpd]; [|rewrite Hoq by exact Hpd; apply (Hpc3 q Hq); assumption].
    exfalso. apply Hq. apply (parcl_below s3 dst q Hpc3); auto. intros m Hm. destruct Hcase as [(C1 & _)|(C1 & _)]; congruence. }
  assert (Cr4 : created dst s s4).
  { constructor; auto.
    - intros q Hq. rewrite Hoq by exact Hq. apply F3. exact Hq.
    - destruct Hcs as [(C1 & _)|(C1 & -> & _)]; [left; congruence|right; split; [exact C1|right; exact Hti]].
    - intros j Hj. destruct (Nat.eq_dec j i) as [->|Hji].
      + destruct Hcs as [(_ & C2 & _)|(_ & C2 & _)]; [rewrite C2; auto|lia].
      + rewrite Hoi by exact Hji. rewrite (proj1 K3). auto.
    - intros j Hj Hjn. destruct (Nat.eq_dec j i) as [->|Hji].
      + destruct Hcs as [(C1 & _)|(_ & C2 & _)]; [congruence|lia].
      + rewrite Hoi by exact Hji. rewrite (proj1 K3). auto.
    - destruct Hcs as [(_ & _ & C)|(_ & C1 & _ & C2)]; [left; exact C|right; split; congruence].
    - intros H. destruct Hcs as [(C1 & _ & C)|(_ & C1 & _ & C2)]; [right; congruence|left; congruence].
    - intros H. destruct Hcs as [(_ & _ & C)|(_ & -> & C3 & _)]; [lia|]. rewrite C3. auto.
    - intros j Hj. rewrite Hoh by lia. rewrite KH. reflexivity.
    - split; [right; congruence|]. intros j Hj. rewrite Hoh by lia. rewrite KH. reflexivity.
    - split; congruence. }
  assert (Hdat : f_tree s dst = Some (FFile i) \/
     (f_tree s dst = None \/ exists t, f_tree s dst = Some (FLink t)) /\ i = f_next s /\ f_next s4 = S i /\ i_data (f_ino s4 i) = [] /\ i_dur (f_ino s4 i) = []).
  { destruct Hcs as [(C1 & _)|(C1 & C2 & C3 & C4)]; [left; exact C1|right]. rewrite C3. splits; auto. }
  assert (Hge : f_tree s dst = Some (FFile i) \/ (f_next s <= i)%nat).
  { destruct Hcs as [(C1 & _)|(_ & C2 & _)]; [left; exact C1|right; lia]. }
  destruct st as [n|x| |].
  2:{ intros E. injection E as <- <-. splits; eauto. intros h' Eh. injection Eh as <-. splits; auto; [congruence|].
      exists i. splits; auto. intros Hc. destruct (f_tree s dst) as [n|] eqn:Ed; [discriminate (Hst' Hc n eq_refl)|].
      destruct Hcs as [(C1 & _)|(_ & _ & C3 & _)]; [congruence|]. rewrite C3. reflexivity. }
  2-3: exfalso; destruct S4 as [[? ?]|[? ?]]; discriminate.
  destruct (f_chmod s4 h mode) as [s5 r5] eqn:E5. eapply f_chmod_spec in E5; [|exact Hhi]. cbn [h_ino] in E5.
  destruct E5 as (Ot & Hh5 & Hd5 & Hu5 & Hm5 & Hc5).
  assert (Cr5 : created dst s s5) by (eapply created_chmod; eauto; congruence).
  pose proof Ot as (X1 & X2 & X3 & X4 & X5 & X6 & X7 & X8).
  destruct r5 as [x|]; intros E; injection E as <- <-.
  { splits; eauto; [discriminate|]. intros Hc _. discriminate (Hc5 (O3 (KC Hc))). }
  splits; eauto. intros h' Eh. injection Eh as <-. splits; try congruence; [unfold alldirs; rewrite X1; exact Hal4|].
  exists i. rewrite X1, X3, Hd5, Hu5. splits; auto. intros _. rewrite (Hst n eq_refl). apply Hm5. reflexivity.
Qed.
