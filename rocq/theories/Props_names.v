(** Props_names.v -- C84: the strings that describe extractors tell them apart. *)
From Verif Require Import Base Source Seek Decomp Drive Sink Zip Tar Features Names ExCodec.
From Coq Require Import String Ascii.
Open Scope string_scope.

(** There is no colon in the string. *)
Fixpoint no_colon (s : string) : Prop :=
  match s with EmptyString => True | String c s' => c <> ":"%char /\ no_colon s' end.

Lemma colon_split : forall a b x y, no_colon a -> no_colon b -> a ++ ":" ++ x = b ++ ":" ++ y -> a = b /\ x = y.
Proof.
  induction a as [|c a IH]; intros [|c' b] x y Ha Hb H; cbn in *.
  - split; congruence.
  - injection H as H1 H2. destruct Hb as [Hb _]. congruence.
  - injection H as H1 H2. destruct Ha as [Ha _]. congruence.
  - injection H as <- H. destruct (IH b x y (proj2 Ha) (proj2 Hb) H) as [-> ->]. auto.
Qed.
Lemma app_assoc_s : forall a b c : string, (a ++ b) ++ c = a ++ b ++ c.
Proof. induction a as [|x a IH]; intros b c; cbn; [reflexivity|]. rewrite IH. reflexivity. Qed.

(** What follows the name. *)
Lemma tail_inj r p q sf r' p' q' sf' :
  (forall s, sf = Some s -> no_colon (sf_name s)) -> (forall s, sf' = Some s -> no_colon (sf_name s)) ->
  let t (r : resume_support) (p q : bool) (sf : option sfeatures) :=
    " resume=" ++ rs_string (rs_int r) ++ (if p then " +preallocate" else "") ++ (if q then " +randomaccess" else "") ++
    match sf with Some s => " (via source " ++ sf_name s ++ ": resume=" ++ rs_string (rs_int (sf_support s)) ++ ")" | None => "" end in
  t r p q sf = t r' p' q' sf' -> r = r' /\ p = p' /\ q = q' /\ sf = sf'.
Proof.
  intros H1 H2 t H.
  assert (Hs : forall n s n' s', no_colon n -> no_colon n' ->
    n ++ ": resume=" ++ rs_string (rs_int s) ++ ")" = n' ++ ": resume=" ++ rs_string (rs_int s') ++ ")" -> MkSfeat n s = MkSfeat n' s').
  { intros n s n' s' Hn Hn' E. destruct (colon_split n n' (" resume=" ++ rs_string (rs_int s) ++ ")") (" resume=" ++ rs_string (rs_int s') ++ ")") Hn Hn' E) as [-> E'].
    destruct s, s'; cbn in E'; try discriminate E'; reflexivity. }
  destruct sf as [[n s]|], sf' as [[n' s']|]; cbn [sf_name sf_support] in *.
  - specialize (H1 _ eq_refl). specialize (H2 _ eq_refl). cbn [sf_name] in H1, H2.
    destruct r, r', p, p', q, q'; cbn -[rs_string rs_int] in H; cbn in H; try discriminate H;
      (split; [reflexivity|]; split; [reflexivity|]; split; [reflexivity|]; f_equal; apply Hs; auto; cbn; congruence).
  - destruct r, r', p, p', q, q'; cbn in H; discriminate H.
  - destruct r, r', p, p', q, q'; cbn in H; discriminate H.
  - destruct r, r', p, p', q, q'; cbn in H; try discriminate H; auto.
Qed.

(** C84. *)
Theorem C84_features_string ef ef' :
  no_colon (ef_name ef) -> no_colon (ef_name ef') ->
  (forall s, ef_source ef = Some s -> no_colon (sf_name s)) -> (forall s, ef_source ef' = Some s -> no_colon (sf_name s)) ->
  (ef_string ef = ef_string ef' <-> ef = ef').
Proof.
  intros N N' S S'. split; [|congruence]. destruct ef as [n r p q sf], ef' as [n' r' p' q' sf']. cbn [ef_name ef_source] in *.
  unfold ef_string. cbn [ef_name ef_support ef_prealloc ef_random ef_source]. intros H.
  destruct (colon_split n n' _ _ N N' H) as [-> H'].
  destruct (tail_inj r p q sf r' p' q' sf' S S' H') as (-> & -> & -> & ->). reflexivity.
Qed.

(** The kinds of entries and the levels of support have different names. *)
Theorem C84_kinds_and_levels :
  (forall k k', ek_string k = ek_string k' -> k = k' \/ exists n n', k = EkOther n /\ k' = EkOther n') /\
  (forall r r', rs_string (rs_int r) = rs_string (rs_int r') -> r = r') /\
  (forall n, (forall r, rs_string n <> rs_string (rs_int r)) <-> (n < 0 \/ 2 < n)%Z).
Proof.
  split; [|split].
  - intros k k' H. destruct k, k'; try discriminate H; auto. right. eauto.
  - intros r r' H. destruct r, r'; try discriminate H; reflexivity.
  - intros n. unfold rs_string. destruct (n =? 0)%Z eqn:E0; [split; [intros H; destruct (H RsNone); reflexivity|lia]|].
    destruct (n =? 1)%Z eqn:E1; [split; [intros H; destruct (H RsEntry); reflexivity|lia]|].
    destruct (n =? 2)%Z eqn:E2; [split; [intros H; destruct (H RsBlock); reflexivity|lia]|].
    split; [lia|]. intros _ r H. destruct r; discriminate H.
Qed.

(** The names of savior's own extractors and sources have no colons; what they say of
    themselves can be told apart. *)
Theorem C84_own_extractors k k' sup sup' :
  (ef_string (tar_features (stk_features k)) = ef_string (tar_features (stk_features k')) <-> stk_features k = stk_features k') /\
  (ef_string (zip_features sup) = ef_string (zip_features sup') <-> sup = sup') /\
  ef_string (zip_features sup) <> ef_string (tar_features (stk_features k)).
Proof.
  assert (Hk : forall k, no_colon (sf_name (stk_features k))).
  { intros [|]; cbn; repeat split; intros H; discriminate H. }
  assert (Ht : forall k, no_colon (ef_name (tar_features (stk_features k)))) by (intros; cbn; repeat split; intros H; discriminate H).
  assert (Hz : forall s, no_colon (ef_name (zip_features s))) by (intros; cbn; repeat split; intros H; discriminate H).
  assert (Hs : forall k s, ef_source (tar_features (stk_features k)) = Some s -> no_colon (sf_name s)) by (intros k0 s [= <-]; apply Hk).
  assert (Hs' : forall u s, ef_source (zip_features u) = Some s -> no_colon (sf_name s)) by (intros u s H; discriminate H).
  split; [|split].
  - rewrite (C84_features_string _ _ (Ht k) (Ht k') (Hs k) (Hs k')). unfold tar_features. split; [intros H; injection H; auto|intros ->; reflexivity].
  - rewrite (C84_features_string _ _ (Hz sup) (Hz sup') (Hs' sup) (Hs' sup')). unfold zip_features. split; [intros H; injection H; auto|intros ->; reflexivity].
  - rewrite (C84_features_string _ _ (Hz sup) (Ht k) (Hs' sup) (Hs k)). intros H. discriminate H.
Qed.

(** With colons in the names it is not so. *)
Theorem C84_colons_confuse : exists ef ef', ef <> ef' /\ ef_string ef = ef_string ef'.
Proof.
  exists (MkEfeat "a" RsNone false false (Some (MkSfeat "b: resume=none (via source c" RsNone))).
  exists (MkEfeat "a: resume=none (via source b" RsNone false false (Some (MkSfeat "c" RsNone))).
  split; [intros H; discriminate H|vm_compute; reflexivity].
Qed.

Example C84_example :
  ef_string (tar_features (MkSfeat "gzip" RsBlock)) = "tar: resume=block (via source gzip: resume=block)" /\
  ef_string (zip_features RsEntry) = "zip: resume=entry +preallocate +randomaccess" /\
  no_colon "gzip" /\ no_colon "tar" /\ no_colon "zip".
Proof. split; [vm_compute; reflexivity|]. split; [vm_compute; reflexivity|]. cbn. repeat split; intros H; discriminate H. Qed.
