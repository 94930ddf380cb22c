(** Props_checker_nuke.v -- C59: a checker.Sink after Nuke checks as a new one does. *)
From Verif Require Import Base Base_proofs Source Sink SinkSpec Misc Props_misc Props_checker.

Section Nuked.
  Context (items : list (bytes * citem)).

  (** no offset recorded or held by a writer is negative *)
  Definition offs_ok (s : cstate) : Prop :=
    (forall d, In d (cs_heap s) -> 0 <= di_min d) /\ (forall w i, In (w, i) (cs_ws s) -> 0 <= cw_off w).

  Lemma in_set_nth {V} (l : list V) i v x : In x (set_nth l i v) -> In x l \/ x = v.
  Proof.
    revert i. induction l as [|y l IH]; intros [|i]; cbn [set_nth]; intros H; auto.
    - destruct H as [<-|H]; [right; reflexivity|left; right; exact H].
    - destruct H as [<-|H]; [left; left; reflexivity|]. destruct (IH _ H); [left; right; assumption|right; assumption].
  Qed.

  Lemma with_item_offs s e k s' r : offs_ok s -> with_item items s e k = (s', r) -> offs_ok s'.
  Proof.
    intros [H1 H2] H. unfold with_item in H. destruct (assoc items (en_path e)) as [it|]; [|injection H as <- <-; split; auto].
    destruct (negb _); [injection H as <- <-; split; auto|].
    destruct (cs_done s (en_path e)) as [i|]; injection H as <- <-; split; cbn [cs_heap cs_ws]; auto.
    intros d Hd. apply in_app_or in Hd. destruct Hd as [Hd|[<-|[]]]; [auto|]. cbn. unfold max_int64, two63. lia.
  Qed.

  Lemma nth_min s i : offs_ok s -> 0 <= di_min (nth i (cs_heap s) empty_ditem).
  Proof.
    intros [H _]. destruct (nth_in_or_default i (cs_heap s) empty_ditem) as [Hi| ->]; [auto|]. cbn. unfold max_int64, two63. lia.
  Qed.

  Lemma cw_loop_ge ref : forall buf off, 0 <= off -> 0 <= fst (fst (cw_loop ref off buf)).
  Proof.
    induction buf as [|b buf IH]; intros off Ho; cbn [cw_loop]; [exact Ho|].
    destruct (off >=? zlen ref); [exact Ho|]. destruct (off <? 0); [exact Ho|].
    destruct (nth_error ref (Z.to_nat off)) as [x|]; [|exact Ho]. destruct (beqb x b); [|exact Ho].
    specialize (IH (off + 1) ltac:(lia)). destruct (cw_loop ref (off + 1) buf) as [[o n] r]. exact IH.
  Qed.

  Lemma step_offs s c : offs_ok s -> offs_ok (fst (cc_step items s c)).
  Proof.
    intros H. destruct c as [e|e t|e|e|h d|h|h|]; cbn [cc_step].
    - cbn [k_mkdir checker_sink]. destruct (with_item items s e EkDir) as [s' r] eqn:E.
      pose proof (with_item_offs _ _ _ _ _ H E). destruct (err_of r); assumption.
    - cbn [k_symlink checker_sink]. destruct (with_item items s e EkSymlink) as [s' r] eqn:E.
      pose proof (with_item_offs _ _ _ _ _ H E) as H'. destruct r as [[it i]|x| |]; try exact H'; try (destruct (err_of _); exact H').
      destruct (negb _); [exact H'|]. cbn [fst]. unfold upd_ditem. pose proof (nth_min s' i H') as Hm. destruct H' as [A B].
      split; cbn [cs_heap cs_ws]; [|exact B]. intros d Hd. apply in_set_nth in Hd. destruct Hd as [Hd| ->]; [auto|exact Hm].
    - cbn [k_getw checker_sink]. destruct (with_item items s e EkFile) as [s' r] eqn:E.
      pose proof (with_item_offs _ _ _ _ _ H E) as H'. destruct r as [[it i]|x| |]; try exact H'.
      assert (Hw : forall w r, (if negb (en_woff e =? 0) then cw_seek (cw_new (ci_data it)) (en_woff e) 0 else (cw_new (ci_data it), Ok 0)) = (w, r) -> 0 <= cw_off w).
      { intros w r. unfold cw_seek. destruct (negb (en_woff e =? 0)); [|intros [= <- _]; cbn; lia].
        cbn [Z.eqb negb]. destruct (en_woff e >? _); [intros [= <- _]; cbn; lia|].
        destruct (en_woff e <? 0) eqn:L; intros [= <- _]; cbn; lia. }
      destruct (if negb (en_woff e =? 0) then _ else _) as [w r] eqn:Ew. specialize (Hw _ _ eq_refl).
      destruct r; try exact H'. destruct H' as [A B]. cbn [fst]. split; cbn [cs_heap cs_ws]; [exact A|].
      intros w' i' Hi. apply in_app_or in Hi. destruct Hi as [Hi|[[= <- <-]|[]]]; [eauto|exact Hw].
    - cbn [k_prealloc checker_sink]. destruct (with_item items s e EkFile) as [s' r] eqn:E.
      exact (with_item_offs _ _ _ _ _ H E).
    - cbn [k_write checker_sink]. destruct (nth_error (cs_ws s) h) as [[w i]|] eqn:En; [|exact H].
      destruct H as [A B]. pose proof (B _ _ (nth_error_In _ _ En)) as Hw. unfold cw_write.
      pose proof (cw_loop_ge (cw_ref w) d (cw_off w) Hw) as Hl. destruct (cw_loop (cw_ref w) (cw_off w) d) as [[o n] r]. cbn [fst] in Hl.
      assert (Hws : forall w' i', In (w', i') (set_nth (cs_ws s) h (MkCw (cw_ref w) o, i)) -> 0 <= cw_off w').
      { intros w' i' Hi. apply in_set_nth in Hi. destruct Hi as [Hi|[= -> ->]]; [eauto|exact Hl]. }
      destruct (nth_error (cs_heap s) i) as [di|] eqn:Ed.
      + pose proof (A _ (nth_error_In _ _ Ed)) as Hd.
        set (di1 := if cw_off w <? di_min di then MkDitem (cw_off w) (di_max di) (di_link di) else di).
        assert (Hd1 : 0 <= di_min di1) by (subst di1; destruct (cw_off w <? di_min di); [exact Hw|exact Hd]).
        destruct r; cbn [fst]; (split; cbn [cs_heap cs_ws]; [|exact Hws]); intros d0 Hin; apply in_set_nth in Hin;
          (destruct Hin as [Hin| ->]; [exact (A _ Hin)|]); try exact Hd1. destruct (o >? di_max di1); exact Hd1.
      + destruct r; cbn [fst]; split; cbn [cs_heap cs_ws]; auto.
    - exact H.
    - exact H.
    - exact H.
  Qed.

  Lemma run_offs : forall l s, offs_ok s -> offs_ok (fst (cc_run items s l)).
  Proof.
    induction l as [|c l IH]; intros s H; cbn [cc_run]; [exact H|].
    pose proof (step_offs s c H) as H1. destruct (cc_step items s c) as [s1 e1]. specialize (IH s1 H1).
    destruct (cc_run items s1 l) as [s2 e2]. exact IH.
  Qed.

  Context (Hit : items_ok items).

  (** C59, Nuke. Whatever was done with the sink before (successfully or not):
      Nuke succeeds, forgets all of it -- Validate then fails if anything is
      expected -- and a correct extraction from there on passes. *)
  Theorem C59_after_nuke l :
    let s := fst (cc_run items cs_new l) in
    exists s1, k_nuke (checker_sink items) s = (s1, None) /\
      (items <> [] -> cs_validate items s1 <> None) /\
      (forall plan, Forall (plan_entry_ok items) plan -> (forall k it, In (k, it) items -> exists x, In x plan /\ en_path (fst x) = k) ->
        exists s2 h, cc_run items s1 (plan_calls h plan) = (s2, plan_events h plan) /\ cs_validate items s2 = None).
  Proof.
    intros s. pose proof (run_offs l cs_new) as Ho. fold s in Ho.
    assert (Hs : offs_ok s) by (apply Ho; split; intros ? *; intros []).
    eexists. split; [reflexivity|]. split.
    - destruct items as [|[k it] its]; [congruence|]. intros _. cbn [cs_validate cs_done]. discriminate.
    - intros plan Hp Hall. set (s1 := MkCs _ _ _).
      destruct (plan_run items plan s1) as (s2 & R1 & _ & R3); auto.
      { unfold heap_ok. subst s1. cbn [cs_done cs_heap]. splits; try discriminate. intros i. exact (nth_min s i Hs). }
      exists s2, (length (cs_ws s1)). split; [exact R1|]. destruct Hit as [Hnd Hpath].
      assert (Hv : forall l0, incl l0 items -> cs_validate l0 s2 = None); [|apply Hv; apply incl_refl].
      induction l0 as [|[k it] l0 IH]; intros Hin; cbn [cs_validate]; [reflexivity|].
      assert (Hi : In (k, it) items) by (apply Hin; left; reflexivity).
      destruct (Hall k it Hi) as (x & Hx & Hk). pose proof (R3 x Hx) as (i & it' & G1 & G2 & G3). rewrite Hk in *.
      assert (it' = it) by (rewrite (assoc_some _ _ _ Hnd Hi) in G2; congruence). subst it'. rewrite (Hpath _ _ Hi), G1.
      assert (IH' : cs_validate l0 s2 = None) by (apply IH; intros y Hy; apply Hin; right; exact Hy).
      unfold d_good in G3. cbv zeta. destruct (en_kind (ci_entry it)); auto.
      + rewrite (proj2 (bytes_eqb_eq _ _) G3). exact IH'.
      + destruct G3 as [-> ->]. rewrite !Z.eqb_refl. cbn [negb]. exact IH'.
  Qed.
End Nuked.

(** An attempt cut short, Nuke, and then the whole file. *)
Example C59_after_nuke_example :
  let s := fst (cc_run ex_citems cs_new [CcGetWriter (ex_fentry 0); CcWrite 0 (s2b "ab")]) in
  let s1 := fst (k_nuke (checker_sink ex_citems) s) in
  cs_validate ex_citems s <> None /\ cs_validate ex_citems s1 <> None /\ length (cs_ws s1) = 1%nat /\
  cs_validate ex_citems (fst (cc_run ex_citems s1 [CcGetWriter (ex_fentry 0); CcWrite 1 (s2b "abc")])) = None.
Proof. vm_compute. splits; try discriminate; reflexivity. Qed.
