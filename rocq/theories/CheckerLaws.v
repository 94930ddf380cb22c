(** CheckerLaws.v -- checker.Sink is a store (SinkSpec.v), as long as it is given what it
    expects: the file at a path is as long as the offset of the last writer handed out for it,
    with the expected bytes where they are known to have been written, and wrong ones elsewhere. *)
From Verif Require Import Base Base_proofs Source Sink SinkSpec Settle_proofs Misc Props_checker.
From Coq Require Import List Lia.

(** a byte other than b *)
Definition off_byte (b : byte) : byte := if beqb b "000"%char then "001"%char else "000"%char.

Lemma off_byte_ne b : off_byte b <> b.
Proof.
  unfold off_byte. destruct (beqb b "000"%char) eqn:E.
  - apply Ascii.eqb_eq in E. subst b. discriminate.
  - intros <-. discriminate.
Qed.

(** the last writer for DoneItem i *)
Fixpoint last_w (ws : list (cwriter * nat)) (i : nat) : option cwriter :=
  match ws with
  | [] => None
  | (w, k) :: ws' =>
      match last_w ws' i with
      | Some w' => Some w'
      | None => if Nat.eqb k i then Some w else None
      end
  end.

Lemma last_w_app ws w k i : last_w (ws ++ [(w, k)]) i = if Nat.eqb k i then Some w else last_w ws i.
Proof.
  induction ws as [|[w0 k0] ws IH]; cbn [app last_w]; [reflexivity|]. rewrite IH.
  destruct (Nat.eqb k i); reflexivity.
Qed.

Lemma last_w_set : forall ws h w w' i j, nth_error ws h = Some (w, i) -> j <> i -> last_w (set_nth ws h (w', i)) j = last_w ws j.
Proof.
  induction ws as [|[w0 k0] ws IH]; intros h w w' i j Hh Hj; [destruct h; discriminate|].
  destruct h as [|h]; cbn [set_nth last_w].
  - injection Hh as -> ->. assert (E : Nat.eqb i j = false) by (apply Nat.eqb_neq; congruence). rewrite E. reflexivity.
  - rewrite (IH h w w' i j Hh Hj). reflexivity.
Qed.

(** writer h is the last one for DoneItem i *)
Definition is_last_w (ws : list (cwriter * nat)) (h i : nat) : Prop :=
  forall h' w', (h < h')%nat -> nth_error ws h' = Some (w', i) -> False.

Lemma last_w_none : forall ws i, (forall h w, nth_error ws h = Some (w, i) -> False) -> last_w ws i = None.
Proof.
  induction ws as [|[w0 k0] ws IH]; intros i H; [reflexivity|]. cbn [last_w]. rewrite IH by (intros h w Hh; exact (H (S h) w Hh)).
  destruct (Nat.eqb k0 i) eqn:E; [|reflexivity]. apply Nat.eqb_eq in E. subst k0. destruct (H 0%nat w0 eq_refl).
Qed.

Lemma last_w_is : forall ws h w i, nth_error ws h = Some (w, i) -> is_last_w ws h i -> last_w ws i = Some w.
Proof.
  induction ws as [|[w0 k0] ws IH]; intros h w i Hh Hl; [destruct h; discriminate|].
  destruct h as [|h]; cbn [last_w].
  - injection Hh as -> ->. rewrite last_w_none, Nat.eqb_refl; [reflexivity|]. intros h w' Hh. apply (Hl (S h) w'); [lia|exact Hh].
  - rewrite (IH h w i Hh); [reflexivity|]. intros h' w' Hlt Hh'. apply (Hl (S h') w'); [lia|exact Hh'].
Qed.

Lemma set_nth_length {V} : forall (l : list V) i v, length (set_nth l i v) = length l.
Proof. induction l as [|x l IH]; intros [|i] v; cbn; auto. Qed.
Lemma set_nth_same {V} : forall (l : list V) i v, (i < length l)%nat -> nth_error (set_nth l i v) i = Some v.
Proof. induction l as [|x l IH]; intros [|i] v H; cbn in *; try lia; auto. apply IH. lia. Qed.
Lemma set_nth_other {V} : forall (l : list V) i j v, i <> j -> nth_error (set_nth l i v) j = nth_error l j.
Proof. induction l as [|x l IH]; intros [|i] [|j] v H; cbn in *; auto; try congruence. Qed.
Lemma nth_of_error {V} (l : list V) i x d : nth_error l i = Some x -> nth i l d = x.
Proof. intros H. apply nth_error_nth. exact H. Qed.

(** n bytes of ref, of which those at positions below c are right, starting at position p *)
Fixpoint cells (ref : bytes) (p c n : nat) : bytes :=
  match n, ref with
  | S n', b :: ref' => (if Nat.ltb p c then b else off_byte b) :: cells ref' (S p) c n'
  | _, _ => []
  end.

Lemma cells_length : forall n ref p c, (n <= length ref)%nat -> length (cells ref p c n) = n.
Proof. induction n as [|n IH]; intros [|b ref] p c H; cbn in *; auto; try lia. rewrite IH; lia. Qed.
Lemma cells_right : forall n ref p c, (p + n <= c)%nat -> cells ref p c n = firstn n ref.
Proof.
  induction n as [|n IH]; intros [|b ref] p c H; cbn [cells firstn]; auto.
  destruct (Nat.ltb_spec p c); [|lia]. rewrite IH by lia. reflexivity.
Qed.
Lemma cells_firstn : forall m n ref p c, (m <= n)%nat -> firstn m (cells ref p c n) = cells ref p c m.
Proof.
  induction m as [|m IH]; intros [|n] [|b ref] p c H; cbn [cells firstn]; auto; try lia. rewrite IH by lia. reflexivity.
Qed.
(** if they are the bytes of ref they are all right *)
Lemma cells_inv : forall n ref p c, (n <= length ref)%nat -> (0 < n)%nat -> cells ref p c n = firstn n ref -> (p + n <= c)%nat.
Proof.
  induction n as [|n IH]; intros ref p c H Hn E; [lia|]. destruct ref as [|b ref]; [cbn in H; lia|]. cbn [cells firstn] in E.
  injection E as E1 E2. destruct (Nat.ltb_spec p c) as [Hp|Hp]; [|destruct (off_byte_ne b E1)].
  destruct n as [|n]; [lia|]. assert (Hx : (S p + S n <= c)%nat) by (apply (IH ref); cbn in *; try lia; exact E2). lia.
Qed.

Lemma cells_all : forall ref p c n, ref <> [] -> cells ref p c n = ref -> (p + length ref <= c)%nat.
Proof.
  induction ref as [|b ref IH]; intros p c n Hne E; [congruence|]. destruct n as [|n]; [discriminate|]. cbn [cells] in E.
  injection E as E1 E2. destruct (Nat.ltb_spec p c) as [Hp|Hp]; [|destruct (off_byte_ne b E1)]. cbn [length].
  destruct ref as [|b' ref]; [cbn; lia|]. specialize (IH (S p) c n ltac:(discriminate) E2). lia.
Qed.

Lemma app_split {V} : forall (a b c d : list V), length a = length c -> a ++ b = c ++ d -> a = c /\ b = d.
Proof.
  induction a as [|x a IH]; intros b [|y c] d Hl E; cbn in *; try discriminate; auto.
  injection E as -> E. destruct (IH b c d) as [-> ->]; auto.
Qed.

Section Laws.
  Context (items : list (bytes * citem)).

  (** how far the file is known to be written *)
  Definition reach (d : ditem) : nat := if di_min d =? 0 then Z.to_nat (di_max d) else 0%nat.

  Definition cs_view (s : cstate) (p : bytes) : option node :=
    match assoc items p, cs_done s p with
    | Some it, Some i =>
        match en_kind (ci_entry it) with
        | EkDir => Some NDir
        | EkSymlink => if bytes_eqb (di_link (nth i (cs_heap s) empty_ditem)) (en_link (ci_entry it)) then Some (NLink (en_link (ci_entry it))) else None
        | EkFile =>
            match last_w (cs_ws s) i with
            | Some w =>
                if di_max (nth i (cs_heap s) empty_ditem) <=? zlen (ci_data it)
                then Some (NFile (cells (ci_data it) 0 (reach (nth i (cs_heap s) empty_ditem)) (Z.to_nat (cw_off w)))) else None
            | None => None
            end
        | _ => None
        end
    | _, _ => None
    end.

  Record cs_inv (s : cstate) : Prop := MkCsInv {
    ci_range : forall p i, cs_done s p = Some i -> (i < length (cs_heap s))%nat;
    ci_inj : forall p q i, cs_done s p = Some i -> cs_done s q = Some i -> p = q;
    ci_wrange : forall h w i, nth_error (cs_ws s) h = Some (w, i) -> (i < length (cs_heap s))%nat;
    ci_writers : forall p it i h w, assoc items p = Some it -> cs_done s p = Some i -> nth_error (cs_ws s) h = Some (w, i) ->
      cw_ref w = ci_data it /\ 0 <= cw_off w <= zlen (ci_data it);
    ci_max : forall p it i, assoc items p = Some it -> cs_done s p = Some i -> 0 <= di_max (nth i (cs_heap s) empty_ditem) <= zlen (ci_data it) /\ 0 <= di_min (nth i (cs_heap s) empty_ditem) }.

  Definition cs_open (s : cstate) (h : nat) (o : option bytes) (off : nat) : Prop :=
    exists p it i w, o = Some p /\ assoc items p = Some it /\ en_kind (ci_entry it) = EkFile /\ cs_done s p = Some i /\
      nth_error (cs_ws s) h = Some (w, i) /\ is_last_w (cs_ws s) h i /\ cw_off w = Z.of_nat off.

  Definition cs_valid (e : entry) : Prop := exists it, assoc items (en_path e) = Some it /\ en_kind (ci_entry it) = en_kind e.
  Definition cs_vlink (e : entry) (t : bytes) : Prop := exists it, assoc items (en_path e) = Some it /\ en_link (ci_entry it) = t.
  Definition cs_fits (p c : bytes) : Prop := exists it, assoc items p = Some it /\ c = firstn (length c) (ci_data it).

  (** withItem, for an entry it expects *)
  Lemma with_item_ok s e : cs_inv s -> cs_valid e ->
    exists it s' i, assoc items (en_path e) = Some it /\ en_kind (ci_entry it) = en_kind e /\
      with_item items s e (en_kind e) = (s', Ok (it, i)) /\ cs_inv s' /\ (forall p, p <> en_path e -> cs_view s' p = cs_view s p) /\
      (en_kind e = EkFile -> cs_view s' (en_path e) = cs_view s (en_path e)) /\
      (en_kind e = EkDir -> cs_view s' (en_path e) = Some NDir) /\
      cs_done s' (en_path e) = Some i.
  Proof.
    intros [I1 I2 I3 I4 I5] (it & Ha & Hk). exists it. unfold with_item. rewrite Ha, Hk.
    assert (Hq : ekind_eqb (en_kind e) (en_kind e) = true) by (destruct (en_kind e); cbn; auto; apply Z.eqb_refl).
    rewrite Hq. cbn [negb]. destruct (cs_done s (en_path e)) as [i|] eqn:Hd.
    - exists s, i. split; [reflexivity|]. split; [reflexivity|]. split; [reflexivity|]. split; [constructor; auto|]. split; [auto|]. split; [auto|].
      split; [|exact Hd]. intros Hkd. unfold cs_view. rewrite Ha, Hd, Hk, Hkd. reflexivity.
    - set (i := length (cs_heap s)).
      set (s' := MkCs (fun p => if bytes_eqb p (en_path e) then Some i else cs_done s p) (cs_heap s ++ [empty_ditem]) (cs_ws s)).
      assert (Hown : cs_done s' (en_path e) = Some i) by (unfold s'; cbn [cs_done]; rewrite bytes_eqb_refl; reflexivity).
      assert (Hoth : forall p, p <> en_path e -> cs_done s' p = cs_done s p).
      { intros p Hp. unfold s'. cbn [cs_done]. apply bytes_eqb_neq in Hp. rewrite Hp. reflexivity. }
      assert (Hh : forall j, (j < length (cs_heap s))%nat -> nth j (cs_heap s') empty_ditem = nth j (cs_heap s) empty_ditem).
      { intros j Hj. unfold s'. cbn [cs_heap]. apply app_nth1. exact Hj. }
      assert (Hn : nth i (cs_heap s') empty_ditem = empty_ditem).
      { unfold s', i. cbn [cs_heap]. rewrite app_nth2, Nat.sub_diag by lia. reflexivity. }
      exists s', i. split; [reflexivity|]. split; [reflexivity|]. split; [reflexivity|].
      assert (Hlen : length (cs_heap s') = S (length (cs_heap s))) by (unfold s'; cbn [cs_heap]; rewrite app_length; cbn; lia).
      split; [constructor|split; [|split; [|split; [|exact Hown]]]].
      + intros p j Hp. rewrite Hlen. destruct (bytes_eq_dec p (en_path e)) as [->|Hne].
        * rewrite Hown in Hp. injection Hp as <-. unfold i. lia.
        * rewrite Hoth in Hp by exact Hne. specialize (I1 _ _ Hp). lia.
      + intros p q j Hp Hq'. destruct (bytes_eq_dec p (en_path e)) as [->|Hne], (bytes_eq_dec q (en_path e)) as [->|Hne2]; auto.
        * rewrite Hown in Hp. injection Hp as <-. rewrite Hoth in Hq' by exact Hne2. specialize (I1 _ _ Hq'). unfold i in I1. lia.
        * rewrite Hown in Hq'. injection Hq' as <-. rewrite Hoth in Hp by exact Hne. specialize (I1 _ _ Hp). unfold i in I1. lia.
        * rewrite Hoth in Hp, Hq' by assumption. eauto.
      + intros h w j Hw. rewrite Hlen. specialize (I3 _ _ _ Hw). lia.
      + intros p it' j h w Ha' Hp Hw. destruct (bytes_eq_dec p (en_path e)) as [->|Hne].
        * rewrite Hown in Hp. injection Hp as <-. specialize (I3 _ _ _ Hw). unfold i in I3. lia.
        * rewrite Hoth in Hp by exact Hne. eauto.
      + intros p it' j Ha' Hp. destruct (bytes_eq_dec p (en_path e)) as [->|Hne].
        * rewrite Hown in Hp. injection Hp as <-. rewrite Hn. cbn [di_max di_min empty_ditem]. unfold zlen, max_int64, two63. lia.
        * rewrite Hoth in Hp by exact Hne. rewrite Hh by (eapply I1; eauto). eauto.
      + intros p Hne. unfold cs_view. rewrite Hoth by exact Hne. destruct (assoc items p) as [it'|]; [|reflexivity].
        destruct (cs_done s p) as [j|] eqn:Hp; [|reflexivity]. rewrite Hh by (eapply I1; eauto). reflexivity.
      + intros Hkf. unfold cs_view. rewrite Ha, Hown, Hd, Hk, Hkf. change (cs_ws s') with (cs_ws s).
        rewrite last_w_none; [reflexivity|]. intros h w Hw. specialize (I3 _ _ _ Hw). unfold i in I3. lia.
      + intros Hkd. unfold cs_view. rewrite Ha, Hown, Hk, Hkd. reflexivity.
  Qed.

  Lemma nth_set_same (l : list ditem) i d : (i < length l)%nat -> nth i (set_nth l i d) empty_ditem = d.
  Proof. intros H. apply nth_error_nth. apply set_nth_same. exact H. Qed.
  Lemma nth_set_other (l : list ditem) i j d : i <> j -> nth j (set_nth l i d) empty_ditem = nth j l empty_ditem.
  Proof.
    intros H. pose proof (set_nth_other l i j d H) as E. destruct (nth_error l j) as [x|] eqn:E1.
    - rewrite (nth_error_nth _ _ _ E), (nth_error_nth _ _ _ E1). reflexivity.
    - apply nth_error_None in E1. rewrite !nth_overflow; auto. rewrite set_nth_length. exact E1.
  Qed.

  Lemma symlink_ok s e t s' r : cs_inv s -> cs_valid e -> en_kind e = EkSymlink -> k_symlink (checker_sink items) s e t = (s', r) ->
    cs_inv s' /\ (forall p, p <> en_path e -> cs_view s' p = cs_view s p) /\ (cs_vlink e t -> r = None) /\
    (r = None -> cs_view s' (en_path e) = Some (NLink t)).
  Proof.
    intros Hi Hv Hk. destruct (with_item_ok s e Hi Hv) as (it & s1 & i & Ha & Hki & Hw & Hi1 & Ho & _ & _ & Hd).
    cbn [k_symlink checker_sink]. rewrite Hk in Hw. rewrite Hw.
    destruct (bytes_eqb (en_link (ci_entry it)) t) eqn:Hl; cbn [negb]; intros E; injection E as <- <-.
    2:{ split; [exact Hi1|]. split; [exact Ho|]. split; [|discriminate]. intros (it' & Ha' & Hl'). exfalso.
      assert (it' = it) by congruence. subst it'. rewrite Hl', bytes_eqb_refl in Hl. discriminate. }
    apply bytes_eqb_eq in Hl. destruct Hi1 as [I1 I2 I3 I4 I5]. pose proof (I1 _ _ Hd) as Hr.
    unfold upd_ditem. split; [constructor; cbn [cs_done cs_heap cs_ws]; rewrite ?set_nth_length; auto|].
    - intros p it' j Ha' Hp. destruct (Nat.eq_dec i j) as [<-|Hne]; [rewrite nth_set_same by exact Hr; cbn [di_max di_min]|rewrite nth_set_other by exact Hne]; eauto.
    - split; [|split; [reflexivity|]].
      + intros p Hp. rewrite <- (Ho p Hp). unfold cs_view. cbn [cs_done cs_heap cs_ws].
        destruct (assoc items p) as [it'|]; [|reflexivity]. destruct (cs_done s1 p) as [j|] eqn:Hj; [|reflexivity].
        rewrite nth_set_other; [reflexivity|]. intros ->. apply Hp. eauto.
      + intros _. unfold cs_view. cbn [cs_done cs_heap cs_ws]. rewrite Ha, Hd, Hki, Hk, nth_set_same by exact Hr. cbn [di_link].
        rewrite Hl, bytes_eqb_refl. reflexivity.
  Qed.

  (** the view of a file *)
  Lemma file_view s p it i w : assoc items p = Some it -> en_kind (ci_entry it) = EkFile -> cs_done s p = Some i -> last_w (cs_ws s) i = Some w ->
    di_max (nth i (cs_heap s) empty_ditem) <= zlen (ci_data it) ->
    cs_view s p = Some (NFile (cells (ci_data it) 0 (reach (nth i (cs_heap s) empty_ditem)) (Z.to_nat (cw_off w)))).
  Proof. intros H1 H2 H3 H4 H5. unfold cs_view. rewrite H1, H3, H2, H4. apply Z.leb_le in H5. rewrite H5. reflexivity. Qed.

  Lemma getw_ok s e s' r : cs_inv s -> cs_valid e -> en_kind e = EkFile -> 0 <= en_woff e ->
    (forall l, Some (en_path e) = Some l -> exists c, cs_fits l c /\ length c = Z.to_nat (en_woff e)) ->
    k_getw (checker_sink items) s e = (s', r) ->
    cs_inv s' /\ (forall p, p <> en_path e -> cs_view s' p = cs_view s p) /\
    (forall c n, cs_view s (en_path e) = Some (NFile c) -> (n <= Z.to_nat (en_woff e))%nat -> (n <= length c)%nat ->
       exists c', cs_view s' (en_path e) = Some (NFile c') /\ (n <= length c')%nat /\ firstn n c' = firstn n c) /\
    exists h, r = Ok h /\ cs_open s' h (Some (en_path e)) (Z.to_nat (en_woff e)).
  Proof.
    intros Hi Hv Hk Hw0 Hfit. destruct (with_item_ok s e Hi Hv) as (it & s1 & i & Ha & Hki & Hw & Hi1 & Ho & Hf & _ & Hd). specialize (Hf Hk).
    destruct (Hfit _ eq_refl) as (c0 & (it' & Ha' & Hc0) & Hlen). assert (it' = it) by congruence. subst it'.
    assert (Hle : en_woff e <= zlen (ci_data it)).
    { assert (length c0 <= length (ci_data it))%nat by (rewrite Hc0, firstn_length; lia). unfold zlen. lia. }
    cbn [k_getw checker_sink]. rewrite Hk in Hw. rewrite Hw. cbv zeta.
    assert (Hwr : (if negb (en_woff e =? 0) then cw_seek (cw_new (ci_data it)) (en_woff e) 0 else (cw_new (ci_data it), Ok 0)) =
      (MkCw (ci_data it) (en_woff e), Ok (en_woff e))).
    { destruct (Z.eqb_spec (en_woff e) 0) as [->|Hne]; [reflexivity|]. cbn [negb]. unfold cw_seek. cbn [Z.eqb negb cw_new cw_ref].
      destruct (en_woff e >? zlen (ci_data it)) eqn:E; [apply Z.gtb_lt in E; lia|].
      destruct (en_woff e <? 0) eqn:E2; [apply Z.ltb_lt in E2; lia|]. reflexivity. }
    rewrite Hwr. intros E. injection E as <- <-. set (w := MkCw (ci_data it) (en_woff e)).
    destruct Hi1 as [I1 I2 I3 I4 I5]. pose proof (I1 _ _ Hd) as Hr.
    assert (Hnew : forall h w' j, nth_error (cs_ws s1 ++ [(w, i)]) h = Some (w', j) -> nth_error (cs_ws s1) h = Some (w', j) \/ w' = w /\ j = i).
    { intros h w' j Hh. destruct (Nat.lt_ge_cases h (length (cs_ws s1))) as [Hlt|Hge].
      - left. rewrite nth_error_app1 in Hh by exact Hlt. exact Hh.
      - right. rewrite nth_error_app2 in Hh by exact Hge. destruct (h - length (cs_ws s1))%nat as [|[|]]; cbn in Hh; try discriminate. injection Hh as <- <-. auto. }
    split; [constructor; cbn [cs_done cs_heap cs_ws]; auto|split; [|split]].
    - intros h w' j Hh. destruct (Hnew _ _ _ Hh) as [Hh'|[-> ->]]; eauto.
    - intros p it' j h w' Ha1 Hp Hh. destruct (Hnew _ _ _ Hh) as [Hh'|[-> ->]]; [eauto|].
      assert (p = en_path e) by eauto. subst p. assert (it' = it) by congruence. subst it'. unfold w. cbn [cw_ref cw_off]. split; [reflexivity|lia].
    - intros p Hp. rewrite <- (Ho p Hp). unfold cs_view. cbn [cs_done cs_heap cs_ws].
      destruct (assoc items p) as [it'|]; [|reflexivity]. destruct (cs_done s1 p) as [j|] eqn:Hj; [|reflexivity].
      rewrite last_w_app. assert (En : Nat.eqb i j = false) by (apply Nat.eqb_neq; intros <-; apply Hp; eauto). rewrite En. reflexivity.
    - intros c n Hvw Hn Hnc. eexists. split.
      + apply (file_view _ _ it i w); cbn [cs_done cs_heap cs_ws]; auto; [congruence|rewrite last_w_app, Nat.eqb_refl; reflexivity|exact (proj2 (proj1 (I5 _ _ _ Ha Hd)))].
      + unfold w. cbn [cw_off cs_heap]. assert (Hwl : (Z.to_nat (en_woff e) <= length (ci_data it))%nat) by (unfold zlen in Hle; lia).
        rewrite cells_length by exact Hwl. split; [exact Hn|]. rewrite cells_firstn by exact Hn.
        rewrite <- Hf in Hvw. unfold cs_view in Hvw. rewrite Ha, Hd, Hki, Hk in Hvw.
        destruct (last_w (cs_ws s1) i) as [w1|]; [|discriminate]. destruct (_ <=? _); [|discriminate]. injection Hvw as <-. symmetry. apply cells_firstn.
        etransitivity; [exact Hnc|]. clear -Hnc. revert Hnc. generalize (Z.to_nat (cw_off w1)). intros m _.
        generalize (ci_data it), (reach (nth i (cs_heap s1) empty_ditem)), 0%nat. clear. induction m as [|m IH]; intros [|b l] c p; cbn [cells length]; try lia. specialize (IH l c (S p)). lia.
    - exists (length (cs_ws s1)). split; [reflexivity|]. exists (en_path e), it, i, w. cbn [cs_done cs_heap cs_ws].
      split; [reflexivity|]. split; [exact Ha|]. split; [congruence|]. split; [exact Hd|]. split; [|split].
      + rewrite nth_error_app2, Nat.sub_diag by lia. reflexivity.
      + intros h' w' Hlt Hh. assert (Hb : (h' < length (cs_ws s1 ++ [(w, i)]))%nat) by (apply nth_error_Some; congruence).
        rewrite app_length in Hb. cbn in Hb. lia.
      + unfold w. cbn [cw_off]. lia.
  Qed.

  Lemma write_ok s h o off d s' n adv e : cs_inv s -> cs_open s h o off ->
    (forall l c, o = Some l -> cs_view s l = Some (NFile c) -> cs_fits l (c ++ d)) ->
    k_write (checker_sink items) s h d = (s', (n, adv, e)) ->
    cs_inv s' /\ n = length d /\ e = None /\ adv = Z.of_nat n /\ cs_open s' h o (off + n) /\
    (forall l, o = Some l -> (forall l', l' <> l -> cs_view s' l' = cs_view s l') /\
      (forall c, cs_view s l = Some (NFile c) -> cs_view s' l = Some (NFile (c ++ firstn n d)))).
  Proof.
    intros Hi (p & it & i & w & -> & Ha & Hk & Hd & Hh & Hl & Hoff) Hfit.
    pose proof (file_view s p it i w Ha Hk Hd (last_w_is _ _ _ _ Hh Hl) (proj2 (proj1 (ci_max _ Hi _ _ _ Ha Hd)))) as Hv. rewrite Hoff, Nat2Z.id in Hv.
    destruct Hi as [I1 I2 I3 I4 I5]. pose proof (I1 _ _ Hd) as Hr. destruct (I4 _ _ _ _ _ Ha Hd Hh) as (Href & Hoff2).
    set (di := nth i (cs_heap s) empty_ditem) in *. set (c := cells (ci_data it) 0 (reach di) off) in *.
    assert (Hle : (off <= length (ci_data it))%nat) by (unfold zlen in Hoff2; lia).
    assert (Hcl : length c = off) by (apply cells_length; exact Hle).
    destruct (Hfit p c eq_refl Hv) as (it' & Ha' & Hcd). assert (it' = it) by congruence. subst it'.
    rewrite app_length, Hcl in Hcd.
    assert (Hle2 : (off + length d <= length (ci_data it))%nat).
    { assert (El : length (c ++ d) = length (firstn (off + length d) (ci_data it))) by (rewrite Hcd at 1; reflexivity).
      rewrite app_length, firstn_length, Hcl in El. lia. }
    assert (Hsplit : c = firstn off (ci_data it) /\ d = firstn (length d) (skipn off (ci_data it))).
    { rewrite firstn_split in Hcd. apply app_split in Hcd; [exact Hcd|]. rewrite Hcl, firstn_length. lia. }
    destruct Hsplit as (Hc & Hdd).
    assert (Hreach : off = 0%nat \/ (0 < off <= reach di)%nat).
    { destruct off as [|off']; [auto|right]. split; [lia|]. apply (cells_inv (S off') (ci_data it) 0 (reach di)); [exact Hle|lia|exact Hc]. }
    cbn [k_write checker_sink]. rewrite Hh. rewrite (nth_error_nth' (cs_heap s) empty_ditem Hr). fold di.
    unfold cw_write. rewrite Href, Hoff.
    rewrite (cw_loop_all d (ci_data it) off (skipn (off + length d) (ci_data it))).
    2:{ rewrite Hdd at 1. rewrite <- skipn_skipn'. rewrite firstn_skipn. reflexivity. }
    2:{ exact Hle. }
    set (d1 := if Z.of_nat off <? di_min di then MkDitem (Z.of_nat off) (di_max di) (di_link di) else di).
    set (d2 := if Z.of_nat (off + length d) >? di_max d1 then MkDitem (di_min d1) (Z.of_nat (off + length d)) (di_link d1) else d1).
    intros E. injection E as <- <- <- <-.
    pose proof (I5 _ _ _ Ha Hd) as [Hmx Hmn]. fold di in Hmx, Hmn.
    assert (Hd1 : di_max d1 = di_max di) by (unfold d1; destruct (_ <? _); reflexivity).
    assert (Hd2 : di_max d2 = Z.max (di_max di) (Z.of_nat (off + length d))).
    { unfold d2. destruct (Z.of_nat (off + length d) >? di_max d1) eqn:Eg; cbn [di_max].
      - apply Z.gtb_lt in Eg. lia.
      - rewrite Z.gtb_ltb in Eg. apply Z.ltb_ge in Eg. lia. }
    assert (Hdl : forall x, bytes_eqb (di_link d2) x = bytes_eqb (di_link di) x).
    { intros x. unfold d2, d1. destruct (_ >? _), (_ <? _); reflexivity. }
    assert (Hr2 : (reach d2 >= off + length d)%nat \/ (off + length d = 0)%nat).
    { destruct (Nat.eq_dec (off + length d) 0) as [Hz|Hnz]; [right; exact Hz|left].
      assert (Hmin : di_min d2 = 0).
      { assert (Hm1 : di_min d1 = 0).
        { unfold d1. destruct Hreach as [Hz|Hre].
          - rewrite Hz. change (Z.of_nat 0) with 0. destruct (0 <? di_min di) eqn:E0; [reflexivity|].
            apply Z.ltb_ge in E0. lia.
          - unfold reach in Hre. destruct (di_min di =? 0) eqn:E0.
            + apply Z.eqb_eq in E0. destruct (Z.of_nat off <? di_min di) eqn:E1; [apply Z.ltb_lt in E1; lia|exact E0].
            + lia. }
        unfold d2. destruct (_ >? _); cbn [di_min]; exact Hm1. }
      unfold reach. rewrite Hmin, Hd2. cbn [Z.eqb]. lia. }
    set (w' := MkCw (ci_data it) (Z.of_nat (off + length d))).
    assert (Hlt : (h < length (cs_ws s))%nat) by (apply nth_error_Some; congruence).
    assert (Hnew : forall k w1 j, nth_error (set_nth (cs_ws s) h (w', i)) k = Some (w1, j) ->
      (k <> h /\ nth_error (cs_ws s) k = Some (w1, j)) \/ (k = h /\ w1 = w' /\ j = i)).
    { intros k w1 j Hkk. destruct (Nat.eq_dec h k) as [<-|Hne].
      - rewrite set_nth_same in Hkk by exact Hlt. injection Hkk as <- <-. auto.
      - rewrite set_nth_other in Hkk by exact Hne. auto. }
    assert (Hl2 : is_last_w (set_nth (cs_ws s) h (w', i)) h i).
    { intros k w1 Hlt1 Hk1. destruct (Hnew _ _ _ Hk1) as [[_ Hk2]|[-> _]]; [eapply Hl; eauto|lia]. }
    assert (Hh2 : nth_error (set_nth (cs_ws s) h (w', i)) h = Some (w', i)) by (apply set_nth_same; exact Hlt).
    split; [constructor; cbn [cs_done cs_heap cs_ws]; rewrite ?set_nth_length; auto|].
    - intros k w1 j Hk1. destruct (Hnew _ _ _ Hk1) as [[_ Hk2]|(-> & -> & ->)]; eauto.
    - intros q it' j k w1 Ha1 Hq Hk1. destruct (Hnew _ _ _ Hk1) as [[_ Hk2]|(-> & -> & ->)]; [eauto|].
      assert (q = p) by eauto. subst q. assert (it' = it) by congruence. subst it'. unfold w', zlen. cbn [cw_ref cw_off]. split; [reflexivity|lia].
    - intros q it' j Ha1 Hq. destruct (Nat.eq_dec i j) as [<-|Hne]; [rewrite nth_set_same by exact Hr|rewrite nth_set_other by exact Hne; eauto].
      assert (q = p) by eauto. subst q. assert (it' = it) by congruence. subst it'. rewrite Hd2. split; [unfold zlen in *; lia|].
      unfold d2, d1. destruct (_ >? _), (_ <? _); cbn [di_min]; lia.
    - split; [reflexivity|]. split; [reflexivity|]. split; [reflexivity|]. split.
      + exists p, it, i, w'. cbn [cs_done cs_heap cs_ws]. split; [reflexivity|]. split; [exact Ha|]. split; [exact Hk|]. split; [exact Hd|].
        split; [exact Hh2|]. split; [exact Hl2|reflexivity].
      + intros l El. injection El as <-. split.
        * intros q Hq. unfold cs_view. cbn [cs_done cs_heap cs_ws]. destruct (assoc items q) as [it'|]; [|reflexivity].
          destruct (cs_done s q) as [j|] eqn:Hj; [|reflexivity]. assert (Hne : i <> j) by (intros <-; apply Hq; eauto).
          rewrite nth_set_other by exact Hne. rewrite (last_w_set _ _ w) by (auto; congruence). reflexivity.
        * intros c' Hv'. rewrite Hv in Hv'. injection Hv' as <-. rewrite firstn_all.
          rewrite (file_view _ p it i w'); cbn [cs_done cs_heap cs_ws]; auto; [|apply (last_w_is _ h); assumption|rewrite nth_set_same by exact Hr; rewrite Hd2; unfold zlen in *; lia].
          rewrite nth_set_same by exact Hr. unfold w'. cbn [cw_off]. rewrite Nat2Z.id. f_equal. f_equal.
          rewrite cells_right by lia. rewrite firstn_split. rewrite <- Hc, <- Hdd. reflexivity.
  Qed.

  (** checker.Sink obeys the laws of a store *)
  Definition checker_laws : sink_laws (checker_sink items).
  Proof.
    refine (MkSinkLaws (checker_sink items) bytes bytes_eq_dec (fun e => Some (en_path e)) (fun _ _ => False)
      cs_valid cs_vlink cs_fits cs_view cs_inv (fun _ => True) cs_open _ _ _ _ _ _ _ _ _ _ _ _); cbv zeta.
    - reflexivity.
    - intros e w H. exact H.
    - intros e w t H. exact H.
    - intros ? ? ? ? _ _ _ _ [].
    - intros st e st' r Hi Hv Hk. destruct (with_item_ok st e Hi Hv) as (it & s1 & i & Ha & Hki & Hw & Hi1 & Ho & _ & Hdir & Hd).
      cbn [k_mkdir checker_sink]. rewrite Hk in Hw. rewrite Hw. cbn [err_of]. intros E. injection E as <- <-.
      split; [exact Hi1|]. split; [|split; [auto|split]].
      + intros l' Hl. left. apply Ho. congruence.
      + intros l El _. injection El as <-. auto.
      + intros _ l El. injection El as <-. split; [auto|intros ? []].
    - intros st e t st' r Hi Hv Hk Hop. destruct (symlink_ok st e t st' r Hi Hv Hk Hop) as (H1 & H2 & H3 & H4).
      split; [exact H1|]. split; [|split; [auto|]].
      + intros l' Hl. left. apply H2. congruence.
      + intros Hr l El. injection El as <-. split; [auto|intros ? []].
    - intros st e st' r Hi Hv Hk. destruct (with_item_ok st e Hi Hv) as (it & s1 & i & Ha & Hki & Hw & Hi1 & Ho & _ & Hdir & Hd).
      cbn [k_prealloc checker_sink]. rewrite Hk in Hw. rewrite Hw. cbn [err_of]. intros E. injection E as <- <-.
      split; [exact Hi1|]. split; [|auto]. intros l' Hl. left. apply Ho. congruence.
    - intros st e st' r Hi Hv Hk Hw Hfit Hop. destruct (getw_ok st e st' r Hi Hv Hk Hw Hfit Hop) as (H1 & H2 & H3 & h & -> & H4).
      split; [exact H1|]. split; [|split].
      + intros l' Hl. left. apply H2. congruence.
      + intros l c n El. injection El as <-. apply H3.
      + split; [auto|]. split; [exact H4|]. intros l _ l' [].
    - intros st w l off Hi (p & it & i & w0 & Hp & Ha & Hk & Hd & Hh & Hl & Hoff). injection Hp as <-.
      eexists. split; [apply (file_view _ _ it i w0 Ha Hk Hd (last_w_is _ _ _ _ Hh Hl) (proj2 (proj1 (ci_max _ Hi _ _ _ Ha Hd))))|]. rewrite Hoff, Nat2Z.id. apply cells_length.
      destruct (ci_writers _ Hi _ _ _ _ _ Ha Hd Hh) as (_ & H). unfold zlen in H. lia.
    - intros st w o off d st' n adv e Hi Ho Hfit Hop. destruct (write_ok st w o off d st' n adv e Hi Ho Hfit Hop) as (H1 & -> & -> & -> & H5 & H6).
      split; [exact H1|]. split; [lia|]. split; [auto|]. split; [auto|].
      destruct o as [l|]; [|destruct Ho as (? & ? & ? & ? & ? & _); discriminate].
      destruct (H6 l eq_refl) as (H7 & H8). auto.
    - intros st w o off st' r Hi Ho Hop. injection Hop as <- <-. auto.
    - intros st w o off st' r Hi Ho Hop. injection Hop as <- <-. auto.
  Defined.
End Laws.
