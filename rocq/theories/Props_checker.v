(** Props_checker.v -- C53, C59, C60: checker.Sink and the test save consumer. *)
From Verif Require Import Base Base_proofs Source Sink SinkSpec Misc Props_misc.

(** A history of calls on a checker.Sink, and what was observed: writers handed out
    (with the entry as it was when asked for), bytes accepted by writers,
    directories and symlinks accepted. *)
Inductive ccall := CcMkdir (e : entry) | CcSymlink (e : entry) (t : bytes) | CcGetWriter (e : entry) | CcPreallocate (e : entry)
  | CcWrite (h : nat) (d : bytes) | CcSync (h : nat) | CcCloseWriter (h : nat) | CcClose.
Inductive cevent := EvDir (e : entry) | EvLink (e : entry) (t : bytes) | EvGot (h : nat) (e : entry) | EvWrote (h : nat) (d : bytes) (n : nat).
Definition cc_step (items : list (bytes * citem)) (s : cstate) (c : ccall) : cstate * list cevent :=
  let SK := checker_sink items in
  match c with
  | CcMkdir e => match k_mkdir SK s e with (s', None) => (s', [EvDir e]) | (s', _) => (s', []) end
  | CcSymlink e t => match k_symlink SK s e t with (s', None) => (s', [EvLink e t]) | (s', _) => (s', []) end
  | CcGetWriter e => match k_getw SK s e with (s', Ok h) => (s', [EvGot h e]) | (s', _) => (s', []) end
  | CcPreallocate e => (fst (k_prealloc SK s e), [])
  | CcWrite h d => let '(s', (n, _, _)) := k_write SK s h d in (s', [EvWrote h d n])
  | CcSync h => (fst (k_sync SK s h), [])
  | CcCloseWriter h => (fst (k_closew SK s h), [])
  | CcClose => (fst (k_close SK s), [])
  end.
Fixpoint cc_run (items : list (bytes * citem)) (s : cstate) (l : list ccall) : cstate * list cevent :=
  match l with
  | [] => (s, [])
  | c :: l' => let '(s1, e1) := cc_step items s c in let '(s2, e2) := cc_run items s1 l' in (s2, e1 ++ e2)
  end.

(** the number of bytes accepted by writer h *)
Fixpoint accepted (h : nat) (evs : list cevent) : nat :=
  match evs with
  | [] => 0
  | EvWrote h' _ n :: evs' => (if (h' =? h)%nat then n else 0) + accepted h evs'
  | _ :: evs' => accepted h evs'
  end.
(** byte j of file p was written, with value b *)
Definition written (evs : list cevent) (p : bytes) (j : nat) (b : byte) : Prop :=
  exists pre post h e d n, evs = pre ++ EvWrote h d n :: post /\ In (EvGot h e) pre /\ en_path e = p /\
    let pos := (Z.to_nat (en_woff e) + accepted h pre)%nat in
    (pos <= j < pos + n)%nat /\ nth_error d (j - pos) = Some b.
(** no writer was asked for beyond what had been written of the file by then *)
Definition no_holes (evs : list cevent) : Prop :=
  forall pre post h e, evs = pre ++ EvGot h e :: post ->
    forall j, (j < Z.to_nat (en_woff e))%nat -> exists b, written pre (en_path e) j b.

(** The keys of Items are the paths of their entries. *)
Definition items_ok (items : list (bytes * citem)) : Prop :=
  NoDup (map fst items) /\ forall k it, In (k, it) items -> en_path (ci_entry it) = k.

Lemma written_app evs more p j b : written evs p j b -> written (evs ++ more) p j b.
Proof.
  intros (pre & post & h & e & d & n & -> & H). exists pre, (post ++ more), h, e, d, n. split; [|exact H].
  rewrite <- app_assoc. reflexivity.
Qed.
Lemma accepted_app h a : forall b, accepted h (a ++ b) = (accepted h a + accepted h b)%nat.
Proof. induction a as [|[] a IH]; intros b; cbn [app accepted]; auto. rewrite IH. lia. Qed.
Lemma no_holes_prefix a b : no_holes (a ++ b) -> no_holes a.
Proof. intros H pre post h e -> j Hj. eapply (H pre (post ++ b)); [rewrite <- app_assoc; reflexivity|exact Hj]. Qed.
Lemma assoc_in {V} (l : list (bytes * V)) k v : assoc l k = Some v -> In (k, v) l.
Proof.
  induction l as [|[k' v'] l IH]; cbn; [discriminate|]. destruct (bytes_eqb k' k) eqn:E; [|auto].
  apply bytes_eqb_eq in E. intros [= ->]. left. congruence.
Qed.
Lemma assoc_some {V} (l : list (bytes * V)) k v : NoDup (map fst l) -> In (k, v) l -> assoc l k = Some v.
Proof.
  induction l as [|[k' v'] l IH]; cbn; [intros _ []|]. intros Hd [E|Hin].
  - injection E as -> ->. rewrite (proj2 (bytes_eqb_eq _ _) eq_refl). reflexivity.
  - inversion Hd; subst. destruct (bytes_eqb k' k) eqn:E; [|auto]. apply bytes_eqb_eq in E. subst k'.
    exfalso. apply H1. change k with (fst (k, v)). apply in_map. exact Hin.
Qed.
Lemma set_nth_length {V} (v : V) : forall l i, length (set_nth l i v) = length l.
Proof. induction l as [|x l IH]; intros [|i]; cbn; auto. Qed.
Lemma nth_set_nth {V} (v d : V) : forall l i j, nth j (set_nth l i v) d = if (j =? i)%nat && (i <? length l)%nat then v else nth j l d.
Proof.
  induction l as [|x l IH]; intros i j.
  - cbn. replace (i <? 0)%nat with false by (symmetry; apply Nat.ltb_ge; lia). rewrite andb_false_r. reflexivity.
  - destruct i as [|i], j as [|j]; cbn [set_nth nth length]; try reflexivity. rewrite IH. reflexivity.
Qed.
Lemma nth_error_set_nth {V} (v : V) : forall l i j, nth_error (set_nth l i v) j = if (j =? i)%nat && (i <? length l)%nat then Some v else nth_error l j.
Proof.
  induction l as [|x l IH]; intros i j.
  - cbn. replace (i <? 0)%nat with false by (symmetry; apply Nat.ltb_ge; lia). rewrite andb_false_r. reflexivity.
  - destruct i as [|i], j as [|j]; cbn [set_nth nth_error length]; try reflexivity. rewrite IH. reflexivity.
Qed.
Lemma ekind_eqb_eq a b : ekind_eqb a b = true <-> a = b.
Proof. destruct a, b; cbn; split; intros H; try discriminate; auto; [apply Z.eqb_eq in H; congruence|injection H as ->; apply Z.eqb_refl]. Qed.

Section Sound.
  Context (items : list (bytes * citem)) (Hit : items_ok items).

  (** What is known of a DoneItem for item [it] at path p. *)
  Definition ditem_ok (evs : list cevent) (p : bytes) (it : citem) (d : ditem) : Prop :=
    match en_kind (ci_entry it) with
    | EkFile => di_max d <= zlen (ci_data it) /\ (no_holes evs -> forall j, Z.of_nat j < di_max d -> exists b, written evs p j b)
    | EkSymlink => di_link d = [] \/ exists e, In (EvLink e (di_link d)) evs /\ en_path e = p
    | EkDir => exists e, In (EvDir e) evs /\ en_path e = p
    | EkOther _ => False
    end.
  Record cinv (s : cstate) (evs : list cevent) : Prop := {
    iv_done : forall p i, cs_done s p = Some i -> (i < length (cs_heap s))%nat /\
      exists it, assoc items p = Some it /\ ditem_ok evs p it (nth i (cs_heap s) empty_ditem);
    iv_inj : forall p q i, cs_done s p = Some i -> cs_done s q = Some i -> p = q;
    iv_got : forall h e, In (EvGot h e) evs -> exists w i it, nth_error (cs_ws s) h = Some (w, i) /\ cs_done s (en_path e) = Some i /\
      assoc items (en_path e) = Some it /\ en_kind (ci_entry it) = EkFile /\ cw_ref w = ci_data it /\ 0 <= en_woff e /\
      cw_off w = en_woff e + Z.of_nat (accepted h evs) /\ 0 <= cw_off w <= zlen (ci_data it) /\
      (no_holes evs -> forall j, Z.of_nat j < cw_off w -> exists b, written evs (en_path e) j b);
    iv_ws : forall h, (h < length (cs_ws s))%nat -> exists e, In (EvGot h e) evs;
    iv_acc : forall h, (length (cs_ws s) <= h)%nat -> accepted h evs = 0%nat;
    iv_wrote : forall p j b, written evs p j b -> exists it, assoc items p = Some it /\ nth_error (ci_data it) j = Some b }.

  Lemma cinv_new : cinv cs_new [].
  Proof. constructor; cbn; try discriminate; try contradiction; try (intros; lia). intros p j b (pre & post & h & e & d & n & H & _). destruct pre; discriminate. Qed.

  (** An event that is not a write adds no bytes. *)
  Definition not_write (ev : cevent) : Prop := match ev with EvWrote _ _ _ => False | _ => True end.
  Lemma written_snoc evs ev p j b : not_write ev -> written (evs ++ [ev]) p j b -> written evs p j b.
  Proof.
    intros Hn (pre & post & h & e & d & n & He & H). destruct post as [|x post'] using rev_ind.
    - apply app_inj_tail in He. destruct He as [_ ->]. contradiction.
    - rewrite app_comm_cons, app_assoc in He. apply app_inj_tail in He. destruct He as [-> _]. exists pre, post', h, e, d, n. auto.
  Qed.
  Lemma ditem_more evs more p it d : ditem_ok evs p it d -> ditem_ok (evs ++ more) p it d.
  Proof.
    unfold ditem_ok. destruct (en_kind (ci_entry it)).
    - intros (e & H1 & H2). exists e. split; [apply in_or_app; left; exact H1|exact H2].
    - intros [H|(e & H1 & H2)]; [left; exact H|right]. exists e. split; [apply in_or_app; left; exact H1|exact H2].
    - intros [H1 H2]. split; [exact H1|]. intros Hh j Hj. destruct (H2 (no_holes_prefix _ _ Hh) j Hj) as (b & Hb). exists b. apply written_app. exact Hb.
    - auto.
  Qed.

  (** withItem: finds the item, allocates its DoneItem; [ev]: the event that
      follows, if the item needs one. *)
  Lemma with_item_inv s evs e kind s' r evn : cinv s evs -> with_item items s e kind = (s', r) ->
    (kind = EkDir -> evn = [EvDir e]) -> (kind = EkDir \/ evn = []) -> (forall n, kind <> EkOther n) ->
    match r with
    | Ok (it, i) => assoc items (en_path e) = Some it /\ en_kind (ci_entry it) = kind /\ cs_done s' (en_path e) = Some i /\
        cs_ws s' = cs_ws s /\ cinv s' (evs ++ evn)
    | Err _ => s' = s
    | _ => False
    end.
  Proof.
    intros Hi H Hev Hev' Hk. unfold with_item in H. destruct (assoc items (en_path e)) as [it|] eqn:Ha; [|injection H as <- <-; reflexivity].
    destruct (ekind_eqb (en_kind (ci_entry it)) kind) eqn:Ek; cbn [negb] in H; [|injection H as <- <-; reflexivity].
    apply ekind_eqb_eq in Ek.
    assert (Hnw : Forall not_write evn) by (destruct Hev' as [Hd| ->]; [rewrite (Hev Hd)|]; repeat constructor).
    assert (Hacc : forall h, accepted h (evs ++ evn) = accepted h evs).
    { intros h. rewrite accepted_app. destruct Hev' as [Hd| ->]; [rewrite (Hev Hd)|]; cbn; lia. }
    assert (Hwr : forall p j b, written (evs ++ evn) p j b -> written evs p j b).
    { intros p j b. destruct Hev' as [Hd| ->]; [rewrite (Hev Hd); apply written_snoc; exact Logic.I|]. rewrite app_nil_r. auto. }
    assert (Hin : forall h e0, In (EvGot h e0) (evs ++ evn) -> In (EvGot h e0) evs).
    { intros h e0 Hx. apply in_app_or in Hx. destruct Hx as [Hx|Hx]; [exact Hx|]. destruct Hev' as [Hd| ->]; [rewrite (Hev Hd) in Hx|contradiction].
      destruct Hx as [Hx|[]]. discriminate. }
    destruct Hi as [V1 V2 V3 V4 V6 V5].
    destruct (cs_done s (en_path e)) as [i|] eqn:Hd.
    - injection H as <- <-. splits; auto. constructor; [|exact V2|..].
      + intros p i' Hp. destruct (V1 p i' Hp) as (H1 & it' & H2 & H3). split; [exact H1|]. exists it'. split; [exact H2|apply ditem_more; exact H3].
      + intros h e0 Hg. destruct (V3 h e0 (Hin _ _ Hg)) as (w & i' & it' & G1 & G2 & G3 & G4 & G5 & G6 & G7 & G8 & G9).
        exists w, i', it'. rewrite Hacc. splits; auto; try lia. intros Hh j Hj. destruct (G9 (no_holes_prefix _ _ Hh) j Hj) as (b & Hb). exists b. apply written_app. exact Hb.
      + intros h Hh. destruct (V4 h Hh) as (e0 & He0). exists e0. apply in_or_app. left. exact He0.
      + intros h Hh. rewrite Hacc. apply V6. exact Hh.
      + intros p j b Hb. apply V5. apply Hwr. exact Hb.
    - injection H as <- <-. cbn [cs_done cs_ws]. rewrite (proj2 (bytes_eqb_eq _ _) eq_refl). splits; auto.
      constructor; cbn [cs_done cs_heap cs_ws].
      + intros p i' Hp. rewrite app_length. cbn [length]. destruct (bytes_eqb p (en_path e)) eqn:Ep.
        * injection Hp as <-. apply bytes_eqb_eq in Ep. subst p. split; [lia|]. exists it. split; [exact Ha|].
          rewrite app_nth2, Nat.sub_diag by lia. cbn [nth]. unfold ditem_ok. rewrite Ek. destruct kind; cbn [empty_ditem di_max di_link].
          -- exists e. rewrite (Hev eq_refl). split; [apply in_or_app; right; left; reflexivity|reflexivity].
          -- left. reflexivity.
          -- split; [unfold zlen; lia|]. intros _ j Hj. lia.
          -- exact (Hk n eq_refl).
        * destruct (V1 p i' Hp) as (H1 & it' & H2 & H3). split; [lia|]. exists it'. split; [exact H2|]. rewrite app_nth1 by lia. apply ditem_more. exact H3.
      + intros p q i' Hp Hq. destruct (bytes_eqb p (en_path e)) eqn:Ep, (bytes_eqb q (en_path e)) eqn:Eq.
        * apply bytes_eqb_eq in Ep. apply bytes_eqb_eq in Eq. congruence.
        * injection Hp as <-. destruct (V1 q _ Hq) as (H1 & _). lia.
        * injection Hq as <-. destruct (V1 p _ Hp) as (H1 & _). lia.
        * eapply V2; eauto.
      + intros h e0 Hg. destruct (V3 h e0 (Hin _ _ Hg)) as (w & i' & it' & G1 & G2 & G3 & G4 & G5 & G6 & G7 & G8 & G9).
        exists w, i', it'. rewrite Hacc. splits; auto; try lia.
        * destruct (bytes_eqb (en_path e0) (en_path e)) eqn:Ep; [|exact G2]. apply bytes_eqb_eq in Ep. congruence.
        * intros Hh j Hj. destruct (G9 (no_holes_prefix _ _ Hh) j Hj) as (b & Hb). exists b. apply written_app. exact Hb.
      + intros h Hh. destruct (V4 h Hh) as (e0 & He0). exists e0. apply in_or_app. left. exact He0.
      + intros h Hh. rewrite Hacc. apply V6. exact Hh.
      + intros p j b Hb. apply V5. apply Hwr. exact Hb.
  Qed.

  Lemma step_inv s evs c s' ev : cinv s evs -> cc_step items s c = (s', ev) -> cinv s' (evs ++ ev).
  Proof.
    intros Hi H. destruct c as [e|e t|e|e|h d|h|h|]; cbn [cc_step] in H.
    - cbn [k_mkdir checker_sink] in H. destruct (with_item items s e EkDir) as [s1 r] eqn:E.
      pose proof (with_item_inv s evs e EkDir s1 r [EvDir e] Hi E ltac:(auto) ltac:(auto) ltac:(discriminate)) as W.
      destruct r as [[it i]|x| |]; try contradiction; cbn [err_of] in H; injection H as <- <-; [tauto|]. subst s1. rewrite app_nil_r. exact Hi.
    - cbn [k_symlink checker_sink] in H. destruct (with_item items s e EkSymlink) as [s1 r] eqn:E.
      pose proof (with_item_inv s evs e EkSymlink s1 r [] Hi E ltac:(discriminate) ltac:(auto) ltac:(discriminate)) as W.
      destruct r as [[it i]|x| |]; try contradiction; cbn [err_of] in H.
      2:{ injection H as <- <-. subst s1. rewrite app_nil_r. exact Hi. }
      destruct W as (W1 & W2 & W3 & W4 & W5). destruct (bytes_eqb (en_link (ci_entry it)) t) eqn:El; cbn [negb] in H; injection H as <- <-; [|exact W5].
      rewrite app_nil_r in W5. clear Hi E. destruct W5 as [V1 V2 V3 V4 V6 V5]. constructor; cbn [upd_ditem cs_done cs_heap cs_ws].
      + intros p i' Hp. rewrite set_nth_length. destruct (V1 p i' Hp) as (H1 & it' & H2 & H3). split; [exact H1|]. exists it'. split; [exact H2|].
        rewrite nth_set_nth. destruct ((i' =? i)%nat && (i <? length (cs_heap s1))%nat) eqn:Eq; [|apply ditem_more; exact H3].
        apply andb_prop in Eq. destruct Eq as [Eq _]. apply Nat.eqb_eq in Eq. subst i'. assert (p = en_path e) by (eapply V2; eauto). subst p.
        assert (it' = it) by congruence. subst it'. unfold ditem_ok. rewrite W2. right. exists e. cbn. split; [apply in_or_app; right; left; reflexivity|reflexivity].
      + exact V2.
      + intros h e0 Hg. apply in_app_or in Hg. destruct Hg as [Hg|[Hg|[]]]; [|discriminate].
        destruct (V3 h e0 Hg) as (w & i' & it' & G1 & G2 & G3 & G4 & G5 & G6 & G7 & G8 & G9). exists w, i', it'.
        rewrite accepted_app. cbn [accepted]. splits; auto; try lia. intros Hh j Hj. destruct (G9 (no_holes_prefix _ _ Hh) j Hj) as (b & Hb). exists b. apply written_app. exact Hb.
      + intros h Hh. destruct (V4 h Hh) as (e0 & He0). exists e0. apply in_or_app. left. exact He0.
      + intros h Hh. rewrite accepted_app, V6; [reflexivity|]. rewrite ?app_length in Hh; lia.
      + intros p j b Hb. apply V5. eapply written_snoc; [|exact Hb]. exact Logic.I.
    - cbn [k_getw checker_sink] in H. destruct (with_item items s e EkFile) as [s1 r] eqn:E.
      pose proof (with_item_inv s evs e EkFile s1 r [] Hi E ltac:(discriminate) ltac:(auto) ltac:(discriminate)) as W.
      destruct r as [[it i]|x| |]; try contradiction.
      2:{ injection H as <- <-. subst s1. rewrite app_nil_r. exact Hi. }
      destruct W as (W1 & W2 & W3 & W4 & W5). rewrite app_nil_r in W5.
      set (wr := if negb (en_woff e =? 0) then cw_seek (cw_new (ci_data it)) (en_woff e) 0 else (cw_new (ci_data it), Ok 0)) in H.
      destruct wr as [w r] eqn:Ew.
      assert (Hw : match r with Ok _ => w = MkCw (ci_data it) (en_woff e) /\ 0 <= en_woff e <= zlen (ci_data it) | Err _ => True | _ => False end).
      { subst wr. destruct (en_woff e =? 0) eqn:E0; cbn [negb] in Ew.
        - injection Ew as <- <-. apply Z.eqb_eq in E0. rewrite E0. split; [reflexivity|unfold zlen; lia].
        - pose proof (C52_checker_seek (cw_new (ci_data it)) (en_woff e) 0) as Hs. rewrite Ew in Hs. destruct r; try contradiction; auto. tauto. }
      destruct r as [o|x| |]; try contradiction; injection H as <- <-; [|rewrite app_nil_r; exact W5].
      destruct Hw as [-> Hr]. clear Hi E wr Ew. destruct W5 as [V1 V2 V3 V4 V6 V5].
      assert (Hnew : forall e0, In (EvGot (length (cs_ws s1)) e0) evs -> False).
      { intros e0 Hg. destruct (V3 _ _ Hg) as (w & i' & it' & G1 & _). assert (nth_error (cs_ws s1) (length (cs_ws s1)) <> None) by congruence.
        apply nth_error_Some in H. lia. }
      constructor; cbn [cs_done cs_heap cs_ws].
      + intros p i' Hp. destruct (V1 p i' Hp) as (H1 & it' & H2 & H3). split; [exact H1|]. exists it'. split; [exact H2|]. apply ditem_more. exact H3.
      + exact V2.
      + intros h e0 Hg. apply in_app_or in Hg. destruct Hg as [Hg|[Hg|[]]].
        * destruct (V3 h e0 Hg) as (w & i' & it' & G1 & G2 & G3 & G4 & G5 & G6 & G7 & G8 & G9). exists w, i', it'.
          rewrite accepted_app. cbn [accepted]. splits; auto; try lia.
          -- rewrite nth_error_app1; [exact G1|]. apply nth_error_Some. congruence.
          -- intros Hh j Hj. destruct (G9 (no_holes_prefix _ _ Hh) j Hj) as (b & Hb). exists b. apply written_app. exact Hb.
        * injection Hg as <- <-. exists (MkCw (ci_data it) (en_woff e)), i, it. rewrite accepted_app. cbn [accepted cw_ref cw_off].
          assert (Hz : accepted (length (cs_ws s1)) evs = 0%nat).
          { apply V6. lia. }
          rewrite Hz. splits; auto; try lia.
          -- rewrite nth_error_app2, Nat.sub_diag by lia. reflexivity.
          -- intros Hh j Hj. destruct (Hh evs [] (length (cs_ws s1)) e eq_refl j ltac:(lia)) as (b & Hb). exists b. apply written_app. exact Hb.
      + intros h Hh. rewrite app_length in Hh. cbn in Hh. destruct (Nat.eq_dec h (length (cs_ws s1))) as [->|Hne].
        * exists e. apply in_or_app. right. left. reflexivity.
        * destruct (V4 h ltac:(lia)) as (e0 & He0). exists e0. apply in_or_app. left. exact He0.
      + intros h Hh. rewrite accepted_app, V6; [reflexivity|]. rewrite ?app_length in Hh; lia.
      + intros p j b Hb. apply V5. eapply written_snoc; [|exact Hb]. exact Logic.I.
    - cbn [k_prealloc checker_sink] in H. destruct (with_item items s e EkFile) as [s1 r] eqn:E.
      pose proof (with_item_inv s evs e EkFile s1 r [] Hi E ltac:(discriminate) ltac:(auto) ltac:(discriminate)) as W.
      destruct r as [[it i]|x| |]; try contradiction; injection H as <- <-; [tauto|]. subst s1. rewrite app_nil_r. exact Hi.
    - cbn [k_write checker_sink] in H. destruct (nth_error (cs_ws s) h) as [[w i]|] eqn:Ew.
      2:{ injection H as <- <-. destruct Hi as [V1 V2 V3 V4 V6 V5].
        assert (Hno : forall p j b, written (evs ++ [EvWrote h d 0]) p j b -> written evs p j b).
        { intros p j b (pre & post & h0 & e & d0 & n & He & H1 & H2 & H3 & H4). destruct post as [|x post'] using rev_ind.
          - apply app_inj_tail in He. destruct He as [_ E2]. injection E2 as _ _ E2. lia.
          - rewrite app_comm_cons, app_assoc in He. apply app_inj_tail in He. destruct He as [-> _]. exists pre, post', h0, e, d0, n. auto. }
        assert (Hacc : forall h', accepted h' (evs ++ [EvWrote h d 0]) = accepted h' evs).
        { intros h'. rewrite accepted_app. cbn. destruct (h =? h')%nat; lia. }
        constructor; auto.
        + intros p i' Hp. destruct (V1 p i' Hp) as (H1 & it' & H2 & H3). split; [exact H1|]. exists it'. split; [exact H2|apply ditem_more; exact H3].
        + intros h' e0 Hg. apply in_app_or in Hg. destruct Hg as [Hg|[Hg|[]]]; [|discriminate].
          destruct (V3 h' e0 Hg) as (w & i' & it' & G1 & G2 & G3 & G4 & G5 & G6 & G7 & G8 & G9).
          exists w, i', it'. rewrite Hacc. splits; auto; try lia. intros Hh j Hj. destruct (G9 (no_holes_prefix _ _ Hh) j Hj) as (b & Hb). exists b. apply written_app. exact Hb.
        + intros h' Hh. destruct (V4 h' Hh) as (e0 & He0). exists e0. apply in_or_app. left. exact He0.
        + intros h' Hh. rewrite Hacc. apply V6. exact Hh. }
      destruct (cw_write w (nth_error (cs_heap s) i) d) as [[w' di'] [n r]] eqn:Ecw. injection H as <- <-.
      assert (Hlen : (h < length (cs_ws s))%nat) by (apply nth_error_Some; congruence).
      destruct Hi as [V1 V2 V3 V4 V6 V5].
      destruct (V4 h Hlen) as (e & He). destruct (V3 h e He) as (w0 & i0 & it & G1 & G2 & G3 & G4 & G5 & G6 & G7 & G8 & G9).
      rewrite Ew in G1. injection G1 as <- <-.
      destruct w as [ref off]. cbn [cw_ref cw_off] in *. subst ref.
      destruct (C52_checker_write _ _ _ _ _ _ _ _ G8 Ecw) as (K1 & K2 & K3 & K4 & K5 & _ & _ & K7 & K8).
      destruct (V1 _ _ G2) as (L1 & it1 & L2 & L3). assert (it1 = it) by congruence. subst it1.
      assert (Hnth : nth_error (cs_heap s) i = Some (nth i (cs_heap s) empty_ditem)) by (apply nth_error_nth'; exact L1).
      (* the bytes just written *)
      assert (Hnew : forall j, (Z.to_nat off <= j < Z.to_nat off + n)%nat -> exists b, written (evs ++ [EvWrote h d n]) (en_path e) j b).
      { intros j Hj. destruct (nth_error d (j - Z.to_nat off)) as [b|] eqn:Eb.
        2:{ apply nth_error_None in Eb. lia. }
        exists b, evs, [], h, e, d, n. cbv zeta. replace (Z.to_nat (en_woff e) + accepted h evs)%nat with (Z.to_nat off) by lia. splits; auto; lia. }
      assert (Hupto : no_holes (evs ++ [EvWrote h d n]) -> forall j, Z.of_nat j < off + Z.of_nat n -> exists b, written (evs ++ [EvWrote h d n]) (en_path e) j b).
      { intros Hh j Hj. destruct (Z_lt_le_dec (Z.of_nat j) off) as [Hlt|Hge].
        - destruct (G9 (no_holes_prefix _ _ Hh) j Hlt) as (b & Hb). exists b. apply written_app. exact Hb.
        - apply Hnew. lia. }
      (* the DoneItem *)
      assert (Hdi : exists d', di' = Some d' /\ di_link d' = di_link (nth i (cs_heap s) empty_ditem) /\
        (di_max d' = di_max (nth i (cs_heap s) empty_ditem) \/ di_max d' = off + Z.of_nat n)).
      { unfold cw_write in Ecw. rewrite Hnth in Ecw. cbn [cw_ref cw_off] in Ecw. destruct (cw_loop (ci_data it) off d) as [[o m] rr].
        set (dd := if off <? di_min (nth i (cs_heap s) empty_ditem) then _ else _) in Ecw.
        assert (Hdd : di_max dd = di_max (nth i (cs_heap s) empty_ditem) /\ di_link dd = di_link (nth i (cs_heap s) empty_ditem)).
        { subst dd. destruct (off <? _); auto. }
        destruct Hdd as [D1 D2]. destruct rr; injection Ecw as <- <- _ _; try (exists dd; splits; auto; fail).
        cbn [cw_off] in K2. destruct (o >? di_max dd); eexists; (split; [reflexivity|]); cbn; auto. }
      destruct Hdi as (d' & -> & D1 & D2).
      constructor; cbn [cs_done cs_heap cs_ws].
      + intros p i' Hp. rewrite set_nth_length. destruct (V1 p i' Hp) as (H1 & it' & H2 & H3). split; [exact H1|]. exists it'. split; [exact H2|].
        rewrite nth_set_nth. destruct ((i' =? i)%nat && (i <? length (cs_heap s))%nat) eqn:Eq; [|apply ditem_more; exact H3].
        apply andb_prop in Eq. destruct Eq as [Eq _]. apply Nat.eqb_eq in Eq. subst i'. assert (p = en_path e) by (eapply V2; eauto). subst p.
        assert (it' = it) by congruence. subst it'. unfold ditem_ok in *. rewrite G4 in *. destruct H3 as [H3 H4]. split; [lia|].
        intros Hh j Hj. destruct D2 as [D2|D2]; rewrite D2 in Hj; [|apply Hupto; auto].
        destruct (H4 (no_holes_prefix _ _ Hh) j Hj) as (b & Hb). exists b. apply written_app. exact Hb.
      + exact V2.
      + intros h' e0 Hg. apply in_app_or in Hg. destruct Hg as [Hg|[Hg|[]]]; [|discriminate].
        destruct (V3 h' e0 Hg) as (w0 & i' & it' & M1 & M2 & M3 & M4 & M5 & M6 & M7 & M8 & M9).
        rewrite nth_error_set_nth, accepted_app. cbn [accepted]. destruct (Nat.eq_dec h' h) as [->|Hne].
        * rewrite Nat.eqb_refl. replace (h <? length (cs_ws s))%nat with true by (symmetry; apply Nat.ltb_lt; exact Hlen). cbn [andb].
          rewrite Ew in M1. injection M1 as <- <-. cbn [cw_ref cw_off] in *.
          assert (en_path e0 = en_path e) by (eapply V2; eauto). assert (it' = it) by congruence. subst it'.
          exists w', i, it. splits; auto; try lia. rewrite H. intros Hh j Hj. apply Hupto; auto. lia.
        * replace (h' =? h)%nat with false by (symmetry; apply Nat.eqb_neq; exact Hne). cbn [andb].
          replace (h =? h')%nat with false by (symmetry; apply Nat.eqb_neq; auto).
          exists w0, i', it'. splits; auto; try lia. intros Hh j Hj. destruct (M9 (no_holes_prefix _ _ Hh) j Hj) as (b & Hb). exists b. apply written_app. exact Hb.
      + intros h' Hh. rewrite set_nth_length in Hh. destruct (V4 h' Hh) as (e0 & He0). exists e0. apply in_or_app. left. exact He0.
      + intros h' Hh. rewrite set_nth_length in Hh. rewrite accepted_app, V6 by exact Hh. cbn. destruct (h =? h')%nat eqn:Eh; [|reflexivity]. apply Nat.eqb_eq in Eh. lia.
      + intros p j b (pre & post & h0 & e0 & d0 & n0 & He0 & H1 & H2 & H3 & H4). destruct post as [|x post'] using rev_ind.
        * apply app_inj_tail in He0. destruct He0 as [<- [= <- <- <-]]. cbv zeta in *.
          destruct (V3 h e0 H1) as (w0 & i' & it' & M1 & M2 & M3 & M4 & M5 & M6 & M7 & M8 & M9).
          rewrite Ew in M1. injection M1 as <- <-. cbn [cw_ref cw_off] in *.
          assert (en_path e0 = en_path e) by (eapply V2; eauto). rewrite <- H2, H. exists it. split; [exact G3|].
          replace (Z.to_nat (en_woff e0) + accepted h evs)%nat with (Z.to_nat off) in * by lia.
          replace j with (Z.to_nat off + (j - Z.to_nat off))%nat at 1 by lia.
          rewrite <- (nth_slice (ci_data it) (Z.to_nat off) n) by lia. rewrite <- K5.
          rewrite <- (firstn_skipn n d) in H4. rewrite nth_error_app1 in H4; [exact H4|]. rewrite firstn_length. lia.
        * rewrite app_comm_cons, app_assoc in He0. apply app_inj_tail in He0. destruct He0 as [-> _]. apply V5.
          exists pre, post', h0, e0, d0, n0. auto.
    - injection H as <- <-. rewrite app_nil_r. exact Hi.
    - injection H as <- <-. rewrite app_nil_r. exact Hi.
    - injection H as <- <-. rewrite app_nil_r. exact Hi.
  Qed.

  Lemma run_inv : forall l s evs s' ev, cinv s evs -> cc_run items s l = (s', ev) -> cinv s' (evs ++ ev).
  Proof.
    induction l as [|c l IH]; intros s evs s' ev Hi H; cbn [cc_run] in H.
    - injection H as <- <-. rewrite app_nil_r. exact Hi.
    - destruct (cc_step items s c) as [s1 e1] eqn:E1. destruct (cc_run items s1 l) as [s2 e2] eqn:E2. injection H as <- <-.
      rewrite app_assoc. eapply IH; [|exact E2]. eapply step_inv; eauto.
  Qed.

  (** C53, a part that always holds: whatever a writer accepted is what is
      expected at that place. *)
  Theorem C53_written_is_expected l s evs p j b : cc_run items cs_new l = (s, evs) -> written evs p j b ->
    exists it, assoc items p = Some it /\ nth_error (ci_data it) j = Some b.
  Proof. intros H. apply (run_inv l cs_new [] s evs cinv_new) in H. apply (iv_wrote _ _ H). Qed.

  Lemma validate_in l s : cs_validate l s = None -> forall k it, In (k, it) l ->
    exists i, cs_done s (en_path (ci_entry it)) = Some i /\
      let d := nth i (cs_heap s) empty_ditem in
      match en_kind (ci_entry it) with
      | EkFile => di_min d = 0 /\ di_max d = zlen (ci_data it)
      | EkSymlink => di_link d = en_link (ci_entry it)
      | _ => True
      end.
  Proof.
    induction l as [|[k' it'] l IH]; intros H k it Hin; [contradiction|]; destruct Hin as [Heq|Hin]; cbn [cs_validate] in H;
      destruct (cs_done s (en_path (ci_entry it'))) as [i|] eqn:Ed; try discriminate.
    - injection Heq as -> ->. exists i. split; [exact Ed|]. cbv zeta in *. destruct (en_kind (ci_entry it)); auto.
      + destruct (bytes_eqb _ _) eqn:E in H; [|discriminate]. apply bytes_eqb_eq. exact E.
      + destruct (di_min _ =? 0) eqn:E1 in H; [|discriminate]. cbn [negb] in H. destruct (di_max _ =? zlen _) eqn:E2 in H; [|discriminate]. lia.
    - apply (IH) with (k := k); auto. cbv zeta in *. destruct (en_kind (ci_entry it')); auto.
      + destruct (bytes_eqb _ _) in H; [exact H|discriminate].
      + destruct (di_min _ =? 0) in H; [|discriminate]. cbn [negb] in H. destruct (di_max _ =? zlen _) in H; [exact H|discriminate].
  Qed.

  (** C53. What holds: if Validate returns nil then everything was
      extracted, provided that no writer was asked for with a
      WriteOffset beyond what had been written, and no symlink with an empty
      target is expected. *)
  Theorem C53_validate_sound_partial l s evs : cc_run items cs_new l = (s, evs) -> no_holes evs -> cs_validate items s = None ->
    forall k it, In (k, it) items ->
      match en_kind (ci_entry it) with
      | EkFile => forall j b, nth_error (ci_data it) j = Some b -> written evs k j b
      | EkSymlink => en_link (ci_entry it) <> [] -> exists e, In (EvLink e (en_link (ci_entry it))) evs /\ en_path e = k
      | EkDir => exists e, In (EvDir e) evs /\ en_path e = k
      | EkOther _ => False
      end.
  Proof.
    intros H Hh Hv k it Hin. pose proof (run_inv l cs_new [] s evs cinv_new H) as Hi. cbn [app] in Hi.
    destruct (validate_in _ _ Hv k it Hin) as (i & Hd & Hk). destruct Hit as [Hnd Hpath]. rewrite (Hpath _ _ Hin) in Hd.
    destruct (iv_done _ _ Hi k i Hd) as (_ & it' & Ha & Hok). assert (it' = it) by (rewrite (assoc_some _ _ _ Hnd Hin) in Ha; congruence). subst it'.
    cbv zeta in Hk. unfold ditem_ok in Hok. destruct (en_kind (ci_entry it)); auto.
    - intros Hne. rewrite Hk in Hok. destruct Hok as [Hok|Hok]; [contradiction|exact Hok].
    - destruct Hok as [_ Hok]. intros j b Hb. destruct Hk as [_ Hk]. rewrite Hk in Hok.
      assert (Hj : Z.of_nat j < zlen (ci_data it)). { unfold zlen. assert (nth_error (ci_data it) j <> None) by congruence. apply nth_error_Some in H0. lia. }
      destruct (Hok Hh j Hj) as (b' & Hb'). destruct (iv_wrote _ _ Hi _ _ _ Hb') as (it' & Ha' & Hn).
      assert (it' = it) by congruence. subst it'. congruence.
  Qed.
End Sound.

(** False of the code in general: here the writes are empty, and yet
    Validate returns nil. *)
Definition ex_citems : list (bytes * citem) := [(s2b "f", MkCitem (MkEntry (s2b "f") EkFile 420 0 3 0 []) (s2b "abc"))].
Definition ex_fentry (woff : Z) : entry := MkEntry (s2b "f") EkFile 420 0 3 woff [].
Lemma not_written_empty evs p j b : Forall (fun ev => match ev with EvWrote _ _ n => n = 0%nat | _ => True end) evs -> ~ written evs p j b.
Proof.
  intros H (pre & post & h & e & d & n & -> & _ & _ & H1 & _). apply Forall_app in H. destruct H as [_ H].
  inversion H; subst. cbv zeta in H1. lia.
Qed.
Theorem C53_validate_misses_holes_refuted :
  exists s evs, items_ok ex_citems /\
    cc_run ex_citems cs_new [CcGetWriter (ex_fentry 0); CcWrite 0 []; CcGetWriter (ex_fentry 3); CcWrite 1 []] = (s, evs) /\
    cs_validate ex_citems s = None /\ forall j b, ~ written evs (s2b "f") j b.
Proof.
  do 2 eexists. split; [|split; [vm_compute; reflexivity|split; [vm_compute; reflexivity|]]].
  - split; [repeat constructor; intros []|]. intros k it [[= <- <-]|[]]. reflexivity.
  - intros j b. apply not_written_empty. repeat constructor.
Qed.
(** ... also when bytes are written, but not all. *)
Theorem C53_validate_misses_middle_refuted :
  exists s evs, cc_run ex_citems cs_new [CcGetWriter (ex_fentry 0); CcWrite 0 (s2b "a"); CcGetWriter (ex_fentry 2); CcWrite 1 (s2b "c")] = (s, evs) /\
    cs_validate ex_citems s = None /\ forall b, ~ written evs (s2b "f") 1 b.
Proof.
  do 2 eexists. split; [vm_compute; reflexivity|]. split; [vm_compute; reflexivity|].
  intros b (pre & post & h & e & d & n & He & H1 & _ & H3 & _).
  destruct pre as [|x0 [|x1 [|x2 [|x3 pre]]]]; cbn [app] in He; try discriminate.
  - injection He as <- <- <- <- <-. destruct H1 as [[= <-]|[]]. cbn in H3. lia.
  - injection He as <- <- <- <- <- <- _. destruct H1 as [[=]|[H1|[[= <-]|[]]]]; [discriminate|]. cbn in H3. lia.
  - injection He as _ _ _ _ He. destruct pre; discriminate.
Qed.
(** ... and for a symlink to "" when its creation was refused. *)
Theorem C53_validate_empty_symlink_refuted :
  let items := [(s2b "l", MkCitem (MkEntry (s2b "l") EkSymlink 420 0 0 0 []) [])] in
  exists s, cc_run items cs_new [CcSymlink (MkEntry (s2b "l") EkSymlink 420 0 0 0 []) (s2b "x")] = (s, []) /\ cs_validate items s = None.
Proof. eexists. split; vm_compute; reflexivity. Qed.

(** ** C59: a correct extraction passes *)
(** [plan]: entries in the order of extraction, files with the chunks they are
    written in; [h]: writers handed out so far. *)
Fixpoint plan_calls (h : nat) (plan : list (entry * list bytes)) : list ccall :=
  match plan with
  | [] => []
  | (e, cs) :: plan' =>
      match en_kind e with
      | EkDir => CcMkdir e :: plan_calls h plan'
      | EkSymlink => CcSymlink e (en_link e) :: plan_calls h plan'
      | _ => CcGetWriter e :: map (CcWrite h) cs ++ plan_calls (S h) plan'
      end
  end.
(** all calls succeed: *)
Fixpoint plan_events (h : nat) (plan : list (entry * list bytes)) : list cevent :=
  match plan with
  | [] => []
  | (e, cs) :: plan' =>
      match en_kind e with
      | EkDir => EvDir e :: plan_events h plan'
      | EkSymlink => EvLink e (en_link e) :: plan_events h plan'
      | _ => EvGot h e :: map (fun c => EvWrote h c (length c)) cs ++ plan_events (S h) plan'
      end
  end.
Definition plan_entry_ok (items : list (bytes * citem)) (x : entry * list bytes) : Prop :=
  exists it, assoc items (en_path (fst x)) = Some it /\ en_kind (fst x) = en_kind (ci_entry it) /\
    match en_kind (fst x) with
    | EkDir => True
    | EkSymlink => en_link (fst x) = en_link (ci_entry it)
    | EkFile => en_woff (fst x) = 0 /\ snd x <> [] /\ List.concat (snd x) = ci_data it
    | EkOther _ => False
    end.

Section Complete.
  Context (items : list (bytes * citem)) (Hit : items_ok items).

  Definition d_good (it : citem) (d : ditem) : Prop :=
    match en_kind (ci_entry it) with
    | EkFile => di_min d = 0 /\ di_max d = zlen (ci_data it)
    | EkSymlink => di_link d = en_link (ci_entry it)
    | _ => True
    end.
  Definition heap_ok (s : cstate) : Prop :=
    (forall p i, cs_done s p = Some i -> (i < length (cs_heap s))%nat) /\
    (forall p q i, cs_done s p = Some i -> cs_done s q = Some i -> p = q) /\
    (forall i, 0 <= di_min (nth i (cs_heap s) empty_ditem)) /\
    (forall p i it, cs_done s p = Some i -> assoc items p = Some it -> di_max (nth i (cs_heap s) empty_ditem) <= zlen (ci_data it)).
  Definition p_good (s : cstate) (p : bytes) : Prop :=
    exists i it, cs_done s p = Some i /\ assoc items p = Some it /\ d_good it (nth i (cs_heap s) empty_ditem).

  Lemma with_item_ok s e it kind : heap_ok s -> assoc items (en_path e) = Some it -> en_kind (ci_entry it) = kind ->
    exists s' i, with_item items s e kind = (s', Ok (it, i)) /\ cs_done s' (en_path e) = Some i /\ heap_ok s' /\ cs_ws s' = cs_ws s /\
      (forall p, p_good s p -> p_good s' p).
  Proof.
    intros (H1 & H2 & H3 & H4) Ha Hk. unfold with_item. rewrite Ha, (proj2 (ekind_eqb_eq _ _) Hk). cbn [negb].
    destruct (cs_done s (en_path e)) as [i|] eqn:Hd.
    - exists s, i. unfold heap_ok. splits; auto.
    - do 2 eexists. split; [reflexivity|]. cbn [cs_done cs_ws]. rewrite (proj2 (bytes_eqb_eq _ _) eq_refl). split; [reflexivity|].
      unfold heap_ok, p_good. cbn [cs_done cs_heap cs_ws]. rewrite app_length. cbn [length]. splits; auto.
      + intros p i Hp. destruct (bytes_eqb p (en_path e)); [injection Hp as <-; lia|]. specialize (H1 _ _ Hp). lia.
      + intros p q i Hp Hq. destruct (bytes_eqb p (en_path e)) eqn:Ep, (bytes_eqb q (en_path e)) eqn:Eq.
        * apply bytes_eqb_eq in Ep. apply bytes_eqb_eq in Eq. congruence.
        * injection Hp as <-. specialize (H1 _ _ Hq). lia.
        * injection Hq as <-. specialize (H1 _ _ Hp). lia.
        * eapply H2; eauto.
      + intros i. destruct (lt_dec i (length (cs_heap s))) as [Hl|Hl]; [rewrite app_nth1 by lia; apply H3|].
        rewrite app_nth2 by lia. destruct (i - length (cs_heap s))%nat as [|[|]]; cbn; unfold max_int64, two63; lia.
      + intros p i it' Hp Hi. destruct (bytes_eqb p (en_path e)) eqn:Ep.
        * injection Hp as <-. rewrite app_nth2, Nat.sub_diag by lia. cbn. unfold zlen. lia.
        * rewrite app_nth1 by eauto. eapply H4; eauto.
      + intros p (i & it' & G1 & G2 & G3). exists i, it'. splits; auto.
        * destruct (bytes_eqb p (en_path e)) eqn:Ep; [|exact G1]. apply bytes_eqb_eq in Ep. congruence.
        * rewrite app_nth1 by eauto. exact G3.
  Qed.

  (** updating the DoneItem of one path *)
  Lemma upd_ok s p0 i it d' : heap_ok s -> cs_done s p0 = Some i -> assoc items p0 = Some it -> 0 <= di_min d' -> di_max d' <= zlen (ci_data it) ->
    (d_good it (nth i (cs_heap s) empty_ditem) -> d_good it d') ->
    forall ws, let s' := MkCs (cs_done s) (set_nth (cs_heap s) i d') ws in
    heap_ok s' /\ nth i (cs_heap s') empty_ditem = d' /\ (forall p, p_good s p -> p_good s' p).
  Proof.
    intros (H1 & H2 & H3 & H4) Hd Ha Hmin Hmax Hg ws s'. subst s'. unfold heap_ok, p_good. cbn [cs_done cs_heap cs_ws].
    assert (Hl : (i <? length (cs_heap s))%nat = true) by (apply Nat.ltb_lt; eauto).
    assert (Hn : forall j, nth j (set_nth (cs_heap s) i d') empty_ditem = if (j =? i)%nat then d' else nth j (cs_heap s) empty_ditem).
    { intros j. rewrite nth_set_nth, Hl, andb_true_r. reflexivity. }
    rewrite set_nth_length. splits; auto.
    - intros j. rewrite Hn. destruct (j =? i)%nat; auto.
    - intros p j it' Hp Hi. rewrite Hn. destruct (j =? i)%nat eqn:E; [|eauto]. apply Nat.eqb_eq in E. subst j.
      assert (p = p0) by eauto. subst p. congruence.
    - rewrite Hn, Nat.eqb_refl. reflexivity.
    - intros p (j & it' & G1 & G2 & G3). exists j, it'. splits; auto. rewrite Hn. destruct (j =? i)%nat eqn:E; [|exact G3].
      apply Nat.eqb_eq in E. subst j. assert (p = p0) by eauto. subst p. assert (it' = it) by congruence. subst it'. auto.
  Qed.

  Lemma cw_loop_all : forall buf ref off rest, skipn off ref = buf ++ rest -> (off <= length ref)%nat ->
    cw_loop ref (Z.of_nat off) buf = (Z.of_nat (off + length buf), length buf, Ok tt).
  Proof.
    induction buf as [|b buf IH]; intros ref off rest H Hl; cbn [cw_loop length]; [rewrite Nat.add_0_r; reflexivity|].
    assert (Hlen : (off < length ref)%nat).
    { assert (length (skipn off ref) = length ((b :: buf) ++ rest)) by congruence. rewrite skipn_length in H0. cbn in H0. lia. }
    destruct (Z.of_nat off >=? zlen ref) eqn:E1; [unfold zlen in *; lia|]. destruct (Z.of_nat off <? 0) eqn:E2; [lia|].
    rewrite Nat2Z.id. destruct (nth_error ref off) as [x|] eqn:En; [|apply nth_error_None in En; lia].
    rewrite (skipn_nth _ _ _ En) in H. injection H as -> H. unfold beqb. rewrite (proj2 (Ascii.eqb_eq _ _) eq_refl).
    replace (Z.of_nat off + 1) with (Z.of_nat (S off)) by lia. rewrite (IH ref (S off) rest H Hlen).
    replace (S off + length buf)%nat with (off + S (length buf))%nat by lia. reflexivity.
  Qed.

  Lemma writes_ok p it h i : assoc items p = Some it -> en_kind (ci_entry it) = EkFile ->
    forall cs off s, heap_ok s -> cs_done s p = Some i -> nth_error (cs_ws s) h = Some (MkCw (ci_data it) (Z.of_nat off), i) ->
    (off <= length (ci_data it))%nat -> skipn off (ci_data it) = List.concat cs ->
    (off = 0%nat /\ cs <> [] \/ di_min (nth i (cs_heap s) empty_ditem) = 0 /\ (cs = [] -> di_max (nth i (cs_heap s) empty_ditem) = zlen (ci_data it))) ->
    exists s', cc_run items s (map (CcWrite h) cs) = (s', map (fun c => EvWrote h c (length c)) cs) /\ heap_ok s' /\
      length (cs_ws s') = length (cs_ws s) /\ (forall q, p_good s q -> p_good s' q) /\ p_good s' p.
  Proof.
    intros Ha Hk. induction cs as [|c cs IH]; intros off s Hh Hd Hw Hl Hc Hm; cbn [map cc_run].
    - exists s. splits; auto. destruct Hm as [[_ Hm]|[Hm1 Hm2]]; [contradiction|]. exists i, it. splits; auto. unfold d_good. rewrite Hk. auto.
    - cbn [cc_step k_write checker_sink]. rewrite Hw. unfold cw_write. cbn [cw_ref cw_off].
      cbn [List.concat] in Hc. rewrite (cw_loop_all c (ci_data it) off (List.concat cs) Hc Hl).
      destruct Hh as (H1 & H2 & H3 & H4). pose proof (H1 _ _ Hd) as Hi. rewrite (nth_error_nth' (cs_heap s) empty_ditem Hi).
      set (d := nth i (cs_heap s) empty_ditem) in *.
      set (d1 := if Z.of_nat off <? di_min d then MkDitem (Z.of_nat off) (di_max d) (di_link d) else d).
      set (d2 := if Z.of_nat (off + length c) >? di_max d1 then MkDitem (di_min d1) (Z.of_nat (off + length c)) (di_link d1) else d1).
      assert (Hlen : (off + length c <= length (ci_data it))%nat).
      { assert (Hx : length (skipn off (ci_data it)) = length (c ++ List.concat cs)) by congruence. rewrite skipn_length, app_length in Hx. lia. }
      assert (E2 : di_min d2 = Z.min (di_min d) (Z.of_nat off) /\ di_max d2 = Z.max (di_max d) (Z.of_nat (off + length c))).
      { subst d2 d1. destruct (Z.of_nat off <? di_min d) eqn:A1; cbn [di_max di_min di_link];
          destruct (Z.of_nat (off + length c) >? di_max d) eqn:A2; cbn [di_max di_min]; lia. }
      destruct E2 as [Emin Emax]. pose proof (H3 i) as H3i. pose proof (H4 _ _ _ Hd Ha) as H4i. fold d in H3i, H4i.
      destruct (upd_ok s p i it d2 (conj H1 (conj H2 (conj H3 H4))) Hd Ha ltac:(lia) ltac:(unfold zlen in *; lia)
        ltac:(unfold d_good; rewrite Hk; fold d; unfold zlen in *; lia) (set_nth (cs_ws s) h (MkCw (ci_data it) (Z.of_nat (off + length c)), i))) as (U1 & U2 & U3).
      cbv zeta in *. set (s1 := MkCs _ _ _) in *.
      destruct (IH (off + length c)%nat s1) as (s' & R1 & R2 & R3 & R4 & R5); auto.
      + unfold s1. cbn [cs_ws]. rewrite nth_error_set_nth, Nat.eqb_refl.
        replace (h <? length (cs_ws s))%nat with true; [reflexivity|]. symmetry. apply Nat.ltb_lt. apply nth_error_Some. congruence.
      + rewrite <- skipn_skipn', Hc, skipn_app, skipn_all, Nat.sub_diag. reflexivity.
      + right. rewrite U2. split; [destruct Hm as [[-> _]|[Hm _]]; lia|]. intros ->. cbn in Hc. rewrite app_nil_r in Hc.
        assert (Hx : length (skipn off (ci_data it)) = length c) by congruence. rewrite skipn_length in Hx. unfold zlen in *. lia.
      + rewrite R1. exists s'. splits; auto. rewrite R3. unfold s1. cbn [cs_ws]. apply set_nth_length.
  Qed.

  Lemma cc_run_app : forall a b s s1 e1 s2 e2, cc_run items s a = (s1, e1) -> cc_run items s1 b = (s2, e2) -> cc_run items s (a ++ b) = (s2, e1 ++ e2).
  Proof.
    induction a as [|c a IH]; intros b s s1 e1 s2 e2 H1 H2; cbn [app cc_run] in *.
    - injection H1 as <- <-. exact H2.
    - destruct (cc_step items s c) as [s0 e0]. destruct (cc_run items s0 a) as [s0' e0'] eqn:E. injection H1 as <- <-.
      rewrite (IH _ _ _ _ _ _ E H2), app_assoc. reflexivity.
  Qed.

  Lemma plan_run : forall plan s, heap_ok s -> Forall (plan_entry_ok items) plan ->
    exists s', cc_run items s (plan_calls (length (cs_ws s)) plan) = (s', plan_events (length (cs_ws s)) plan) /\
      (forall q, p_good s q -> p_good s' q) /\ forall x, In x plan -> p_good s' (en_path (fst x)).
  Proof.
    induction plan as [|[e cs] plan IH]; intros s Hh Hp; cbn [plan_calls plan_events].
    - exists s. splits; auto. intros x [].
    - inversion Hp as [|x y Hx Hp']; subst. destruct Hx as (it & Ha & Hk & Hx). cbn [fst snd] in *.
      destruct (en_kind e) as [| | |n] eqn:Ek; [| | |contradiction].
      + destruct (with_item_ok s e it EkDir Hh Ha (eq_sym Hk)) as (s1 & i & W1 & W2 & W3 & W4 & W5).
        cbn [cc_run cc_step k_mkdir checker_sink]. rewrite W1. cbn [err_of]. rewrite <- W4.
        destruct (IH s1 W3 Hp') as (s' & R1 & R2 & R3). rewrite R1. exists s'. split; [reflexivity|]. split; [auto|].
        intros x [<-|Hin]; [|auto]. apply R2. exists i, it. splits; auto. unfold d_good. rewrite <- Hk. exact Logic.I.
      + destruct (with_item_ok s e it EkSymlink Hh Ha (eq_sym Hk)) as (s1 & i & W1 & W2 & W3 & W4 & W5).
        cbn [cc_run cc_step k_symlink checker_sink]. rewrite W1, Hx, (proj2 (bytes_eqb_eq _ _) eq_refl). cbn [negb]. unfold upd_ditem.
        set (d := nth i (cs_heap s1) empty_ditem). pose proof W3 as (_ & _ & H3 & H4).
        destruct (upd_ok s1 (en_path e) i it (MkDitem (di_min d) (di_max d) (en_link (ci_entry it))) W3 W2 Ha (H3 i) (H4 _ _ _ W2 Ha)
          ltac:(unfold d_good; rewrite <- Hk; auto) (cs_ws s1)) as (U1 & U2 & U3).
        cbv zeta in *. set (s2 := MkCs _ _ _) in *. change (length (cs_ws s)) with (length (cs_ws s)). rewrite <- W4. change (cs_ws s1) with (cs_ws s2).
        destruct (IH s2 U1 Hp') as (s' & R1 & R2 & R3). rewrite R1. exists s'. split; [reflexivity|]. split; [auto|].
        intros x [<-|Hin]; [|auto]. apply R2. exists i, it. splits; auto. unfold d_good. rewrite <- Hk, U2. reflexivity.
      + destruct Hx as (Hw0 & Hne & Hcat).
        destruct (with_item_ok s e it EkFile Hh Ha (eq_sym Hk)) as (s1 & i & W1 & W2 & W3 & W4 & W5).
        set (s2 := MkCs (cs_done s1) (cs_heap s1) (cs_ws s1 ++ [(cw_new (ci_data it), i)])).
        destruct (writes_ok (en_path e) it (length (cs_ws s1)) i Ha (eq_sym Hk) cs 0 s2) as (s3 & X1 & X2 & X3 & X4 & X5); auto.
        { unfold s2. cbn [cs_ws]. rewrite nth_error_app2, Nat.sub_diag by lia. reflexivity. }
        { lia. }
        assert (Hl3 : length (cs_ws s3) = S (length (cs_ws s))).
        { rewrite X3. unfold s2. cbn [cs_ws]. rewrite app_length, W4. cbn. lia. }
        destruct (IH s3 X2 Hp') as (s' & R1 & R2 & R3). rewrite Hl3 in R1. rewrite W4 in X1.
        exists s'. split.
        * cbn [cc_run]. assert (Hs : cc_step items s (CcGetWriter e) = (s2, [EvGot (length (cs_ws s)) e])).
          { cbn [cc_step k_getw checker_sink]. rewrite W1, Hw0. cbn [Z.eqb negb]. unfold s2. rewrite W4. reflexivity. }
          rewrite Hs. rewrite (cc_run_app _ _ _ _ _ _ _ X1 R1). reflexivity.
        * split; [intros q Hq; apply R2, X4; exact (W5 q Hq)|]. intros x [<-|Hin]; [|auto]. apply R2. exact X5.
  Qed.

  (** C59. Extracting every item, files from offset 0 in one or more writes, in
      any order and any number of times: every call succeeds and Validate
      returns nil. *)
  Theorem C59_correct_extraction_passes plan :
    Forall (plan_entry_ok items) plan -> (forall k it, In (k, it) items -> exists x, In x plan /\ en_path (fst x) = k) ->
    exists s, cc_run items cs_new (plan_calls 0 plan) = (s, plan_events 0 plan) /\ cs_validate items s = None.
  Proof.
    intros Hp Hall.
    destruct (plan_run plan cs_new) as (s & R1 & _ & R3); auto.
    { unfold heap_ok, cs_new. cbn [cs_done cs_heap]. splits; try discriminate. intros [|]; cbn; unfold max_int64, two63; lia. }
    exists s. split; [exact R1|]. destruct Hit as [Hnd Hpath].
    assert (Hv : forall l, incl l items -> cs_validate l s = None); [|apply Hv; apply incl_refl].
    induction l as [|[k it] l IH]; intros Hin; cbn [cs_validate]; [reflexivity|].
    assert (Hi : In (k, it) items) by (apply Hin; left; reflexivity).
    destruct (Hall k it Hi) as (x & Hx & Hk). pose proof (R3 x Hx) as (i & it' & G1 & G2 & G3). rewrite Hk in *.
    assert (it' = it) by (rewrite (assoc_some _ _ _ Hnd Hi) in G2; congruence). subst it'. rewrite (Hpath _ _ Hi), G1.
    assert (IH' : cs_validate l s = None) by (apply IH; intros y Hy; apply Hin; right; exact Hy).
    unfold d_good in G3. cbv zeta. destruct (en_kind (ci_entry it)); auto.
    - rewrite (proj2 (bytes_eqb_eq _ _) G3). exact IH'.
    - destruct G3 as [-> ->]. rewrite !Z.eqb_refl. cbn [negb]. exact IH'.
  Qed.
End Complete.
Example C59_example : exists s,
  cc_run ex_citems cs_new (plan_calls 0 [(ex_fentry 0, [s2b "ab"; []; s2b "c"])]) = (s, [EvGot 0 (ex_fentry 0); EvWrote 0 (s2b "ab") 2; EvWrote 0 [] 0; EvWrote 0 (s2b "c") 1]) /\
  cs_validate ex_citems s = None /\ no_holes [EvGot 0 (ex_fentry 0); EvWrote 0 (s2b "ab") 2; EvWrote 0 [] 0; EvWrote 0 (s2b "c") 1] /\
  plan_entry_ok ex_citems (ex_fentry 0, [s2b "ab"; []; s2b "c"]).
Proof.
  eexists. split; [vm_compute; reflexivity|]. split; [vm_compute; reflexivity|]. split.
  - intros [|x0 [|x1 [|x2 [|x3 pre]]]] post h e He j Hj; try discriminate; cbn [app] in He.
    + injection He as <- <- _. cbn in Hj. lia.
    + injection He as _ _ _ _ He. destruct pre; discriminate.
  - eexists. split; [vm_compute; reflexivity|]. vm_compute. splits; try reflexivity. discriminate.
Qed.

(** ** C60: the consumer of the tests. ShouldSave answers yes exactly if more
    than [threshold] bytes were copied since the last checkpoint was saved. *)
Inductive scall (CK DT : Type) := ScCopied (n : Z) | ScSave (c : eckpt CK DT).
Arguments ScCopied {CK DT}. Arguments ScSave {CK DT}.
Fixpoint sc_run {CK DT} (SV : saver CK DT) (v : sv_st SV) (l : list (scall CK DT)) : sv_st SV :=
  match l with
  | [] => v
  | ScCopied n :: l' => sc_run SV (fst (sv_should SV v n)) l'
  | ScSave c :: l' => sc_run SV (fst (sv_save SV v c)) l'
  end.
Definition since_save {CK DT} (l : list (scall CK DT)) : Z :=
  fold_left (fun t c => match c with ScCopied n => t + n | ScSave _ => 0 end) l 0.
Theorem C60_counter {CK DT V} threshold (on_save : V -> eckpt CK DT -> V * (bool + gerr)) v l n :
  (forall m, In (ScCopied m) (l ++ [ScCopied n]) -> 0 <= m) ->
  fold_left (fun t (c : scall CK DT) => match c with ScCopied m => t + m | ScSave _ => t end) (l ++ [ScCopied n]) 0 < two63 ->
  snd (sv_should (counter_saver threshold on_save) (sc_run (counter_saver threshold on_save) (0, v) l) n) = (since_save l + n >? threshold).
Proof.
  intros Hm Ht. set (SV := counter_saver threshold on_save).
  assert (H : forall l c v, (forall m, In (ScCopied m) l -> 0 <= m) -> 0 <= c ->
    fold_left (fun t (c : scall CK DT) => match c with ScCopied m => t + m | ScSave _ => t end) l c < two63 ->
    fst (sc_run SV (c, v) l) = fold_left (fun t c => match c with ScCopied n => t + n | ScSave _ => 0 end) l c /\
    0 <= fst (sc_run SV (c, v) l) <= fold_left (fun t (c : scall CK DT) => match c with ScCopied m => t + m | ScSave _ => t end) l c).
  { assert (Hmono : forall (l : list (scall CK DT)) a b, a <= b ->
      fold_left (fun t (c : scall CK DT) => match c with ScCopied m => t + m | ScSave _ => t end) l a <=
      fold_left (fun t (c : scall CK DT) => match c with ScCopied m => t + m | ScSave _ => t end) l b).
    { induction l0 as [|[m|c] l0 IH]; intros a b Hab; cbn [fold_left]; auto. apply IH. lia. }
    assert (Hge : forall (l : list (scall CK DT)) a, (forall m, In (ScCopied m) l -> 0 <= m) ->
      a <= fold_left (fun t (c : scall CK DT) => match c with ScCopied m => t + m | ScSave _ => t end) l a).
    { induction l0 as [|[m|c] l0 IH]; intros a Hl; cbn [fold_left]; [lia| |apply IH; intros; apply Hl; right; auto].
      etransitivity; [|apply IH; intros; apply Hl; right; auto]. specialize (Hl m (or_introl eq_refl)). lia. }
    induction l0 as [|[m|c] l0 IH]; intros c0 v0 Hl Hc Hf; cbn [fold_left sc_run] in *.
    - cbn. lia.
    - subst SV. cbn [sv_should counter_saver fst snd]. pose proof (Hl m (or_introl eq_refl)).
      assert (Hl' : forall m0, In (ScCopied m0) l0 -> 0 <= m0) by (intros; apply Hl; right; auto).
      pose proof (Hge l0 (c0 + m) Hl'). rewrite wrap64_id by (unfold is_int64; lia). apply IH; auto. lia.
    - subst SV. cbn [sv_save counter_saver fst snd]. destruct (on_save v0 c) as [v1 r1]. cbn [fst].
      assert (Hl' : forall m0, In (ScCopied m0) l0 -> 0 <= m0) by (intros; apply Hl; right; auto).
      pose proof (Hmono l0 0 c0 Hc). destruct (IH 0 v1 Hl') as [I1 I2]; [lia|lia|]. split; [exact I1|lia]. }
  rewrite fold_left_app in Ht. cbn [fold_left] in Ht.
  assert (Hl' : forall m0, In (ScCopied m0) l -> 0 <= m0) by (intros; apply Hm; apply in_or_app; auto).
  assert (Hn : 0 <= n) by (apply Hm; apply in_or_app; right; left; reflexivity).
  destruct (H l 0 v Hl') as [I1 I2]; [lia|lia|]. unfold SV. cbn [sv_should counter_saver fst snd].
  change (counter_saver threshold on_save) with SV. rewrite I1. unfold since_save. rewrite I1 in I2. rewrite wrap64_id; [reflexivity|]. unfold is_int64. unfold two63 in *. lia.
Qed.
Example C60_example :
  let SV := @counter_saver unit unit nat 10 (fun v _ => (S v, inl false)) in let c := MkEck None 0 None None None in
  map (fun l => snd (sv_should SV (sc_run SV (0, 0%nat) l) 6)) [[]; [ScCopied 4]; [ScCopied 5]; [ScCopied 9; ScSave c]; [ScCopied 9; ScSave c; ScCopied 5]]
  = [false; false; true; false; true].
Proof. vm_compute. reflexivity. Qed.
