(** Touched_proofs.v -- extractors call Write at least once for every file they copy through
    a source: for a checker.Sink, empty files count as written. *)
From Verif Require Import Base Base_proofs Source Seek Decomp Drive Copier Sink Zip Tar Again Misc CheckerLaws Order_proofs.
From Coq Require Import List Lia.

Lemma cw_loop_range : forall buf ref off o n r, 0 <= off <= zlen ref -> cw_loop ref off buf = (o, n, r) -> 0 <= o <= zlen ref.
Proof.
  induction buf as [|b buf IH]; intros ref off o n r H E; cbn [cw_loop] in E; [injection E as <- _ _; exact H|].
  destruct (off >=? zlen ref) eqn:Eg; [injection E as <- _ _; exact H|]. rewrite Z.geb_leb in Eg. apply Z.leb_gt in Eg.
  destruct (off <? 0); [injection E as <- _ _; exact H|]. destruct (nth_error ref _); [|injection E as <- _ _; exact H].
  destruct (beqb _ _); [|injection E as <- _ _; exact H].
  destruct (cw_loop ref (off + 1) buf) as [[o1 n1] r1] eqn:El. injection E as <- _ _. eapply IH; [|exact El]. lia.
Qed.

Section Checker.
  Context (items : list (bytes * citem)).
  Notation SK := (checker_sink items).

  Record sane (s : cstate) : Prop := MkSane {
    sn_done : forall p i, cs_done s p = Some i -> (i < length (cs_heap s))%nat;
    sn_ws : forall h w i, nth_error (cs_ws s) h = Some (w, i) -> 0 <= cw_off w <= zlen (cw_ref w) /\ (i < length (cs_heap s))%nat;
    sn_min : forall i, 0 <= di_min (nth i (cs_heap s) empty_ditem) /\ 0 <= di_max (nth i (cs_heap s) empty_ditem) }.
  (** Write was called for p *)
  Definition touched (s : cstate) (p : bytes) : Prop := exists i, cs_done s p = Some i /\ di_min (nth i (cs_heap s) empty_ditem) = 0.
  (** h is a writer for the file at p, which should be empty *)
  Definition writes (s : cstate) (h : nat) (p : bytes) : Prop :=
    exists w i, nth_error (cs_ws s) h = Some (w, i) /\ cw_ref w = [] /\ cs_done s p = Some i.
  Definition empty_at (p : bytes) : Prop := exists it, assoc items p = Some it /\ ci_data it = [].

  (** what every operation does *)
  Definition step (s s' : cstate) : Prop :=
    sane s -> sane s' /\ (forall p, touched s p -> touched s' p) /\ (forall h p, writes s h p -> writes s' h p).
  Lemma step_refl s : step s s.
  Proof. intros H. auto. Qed.
  Lemma step_trans s1 s2 s3 : step s1 s2 -> step s2 s3 -> step s1 s3.
  Proof. intros H1 H2 Hs. destruct (H1 Hs) as (A1 & A2 & A3). destruct (H2 A1) as (B1 & B2 & B3). auto. Qed.

  Lemma with_item_step s e kd s' r : with_item items s e kd = (s', r) -> step s s' /\
    match r with Ok (it, i) => assoc items (en_path e) = Some it /\ cs_done s' (en_path e) = Some i | _ => True end.
  Proof.
    unfold with_item. destruct (assoc items (en_path e)) as [it|] eqn:Ea; [|intros E; injection E as <- <-; split; [apply step_refl|exact Logic.I]].
    destruct (negb _); [intros E; injection E as <- <-; split; [apply step_refl|exact Logic.I]|].
    destruct (cs_done s (en_path e)) as [i|] eqn:Ed; intros E; injection E as <- <-; [split; [apply step_refl|auto]|].
    cbn [cs_done]. rewrite bytes_eqb_refl. split; [|auto]. intros [H1 H2 H3].
    assert (Hd : forall p j, cs_done s p = Some j -> (if bytes_eqb p (en_path e) then Some (length (cs_heap s)) else cs_done s p) = Some j).
    { intros p j Hp. destruct (bytes_eqb p (en_path e)) eqn:Eb; [|exact Hp]. apply bytes_eqb_eq in Eb. subst p. congruence. }
    split; [constructor|split].
    - intros p j. cbn [cs_done cs_heap]. rewrite app_length. cbn [length]. destruct (bytes_eqb p (en_path e)).
      + intros Hj. injection Hj as <-. lia.
      + intros Hj. specialize (H1 _ _ Hj). lia.
    - intros h w j Hw. cbn [cs_ws cs_heap] in *. rewrite app_length. specialize (H2 _ _ _ Hw). split; [tauto|cbn [length]; lia].
    - intros j. cbn [cs_heap]. destruct (Nat.lt_ge_cases j (length (cs_heap s))) as [Hj|Hj]; [rewrite app_nth1 by exact Hj; apply H3|].
      rewrite app_nth2 by exact Hj. destruct (j - length (cs_heap s))%nat as [|[|x]]; cbn [nth empty_ditem di_min di_max]; unfold max_int64, two63; lia.
    - intros p (j & Hp & Hm). exists j. cbn [cs_done cs_heap]. split; [apply Hd; exact Hp|].
      rewrite app_nth1; [exact Hm|eapply H1; exact Hp].
    - intros h p (w & j & Hw & Hr & Hp). exists w, j. cbn [cs_ws cs_done]. auto.
  Qed.

  Lemma upd_step s i d : di_max d = di_max (nth i (cs_heap s) empty_ditem) -> di_min d = di_min (nth i (cs_heap s) empty_ditem) \/ di_min d = 0 -> step s (upd_ditem s i d).
  Proof.
    intros Hx Hd [H1 H2 H3]. unfold upd_ditem. split; [constructor|split]; cbn [cs_done cs_heap cs_ws]; rewrite ?set_nth_length; auto.
    - intros j. destruct (Nat.eq_dec i j) as [<-|Hne]; [|rewrite nth_set_other by exact Hne; apply H3].
      destruct (Nat.lt_ge_cases i (length (cs_heap s))) as [Hj|Hj]; [rewrite nth_set_same by exact Hj; specialize (H3 i); lia|].
      rewrite nth_overflow by (rewrite set_nth_length; exact Hj). cbn [di_min di_max empty_ditem]. unfold max_int64, two63. lia.
    - intros p (j & Hp & Hm). exists j. cbn [cs_done cs_heap]. split; [exact Hp|]. specialize (H1 _ _ Hp).
      destruct (Nat.eq_dec i j) as [->|Hne]; [rewrite nth_set_same by exact H1; destruct Hd; congruence|rewrite nth_set_other by exact Hne; exact Hm].
  Qed.

  Lemma mkdir_step s e s' r : k_mkdir SK s e = (s', r) -> step s s'.
  Proof.
    cbn [k_mkdir checker_sink]. destruct (with_item items s e EkDir) as [s1 r1] eqn:E. intros H; injection H as <- _.
    exact (proj1 (with_item_step _ _ _ _ _ E)).
  Qed.
  Lemma prealloc_step s e s' r : k_prealloc SK s e = (s', r) -> step s s'.
  Proof.
    cbn [k_prealloc checker_sink]. destruct (with_item items s e EkFile) as [s1 r1] eqn:E. intros H; injection H as <- _.
    exact (proj1 (with_item_step _ _ _ _ _ E)).
  Qed.
  Lemma symlink_step s e t s' r : k_symlink SK s e t = (s', r) -> step s s'.
  Proof.
    cbn [k_symlink checker_sink]. destruct (with_item items s e EkSymlink) as [s1 r1] eqn:E. pose proof (proj1 (with_item_step _ _ _ _ _ E)) as H1.
    destruct r1 as [[it i]| | |]; try (intros H; injection H as <- _; exact H1).
    destruct (negb _); intros H; injection H as <- _; [exact H1|]. eapply step_trans; [exact H1|]. apply upd_step; [reflexivity|]. left. reflexivity.
  Qed.
  Lemma getw_step s e s' r : k_getw SK s e = (s', r) -> step s s' /\
    (sane s -> forall w, r = Ok w -> empty_at (en_path e) -> writes s' w (en_path e)).
  Proof.
    cbn [k_getw checker_sink]. destruct (with_item items s e EkFile) as [s1 r1] eqn:E. destruct (with_item_step _ _ _ _ _ E) as [H1 H2].
    destruct r1 as [[it i]| | |]; try (intros H; injection H as <- <-; split; [exact H1|discriminate]).
    destruct H2 as [Ha Hd].
    destruct (if negb (en_woff e =? 0) then _ else _) as [w r2] eqn:Ew.
    assert (Hw : forall z, r2 = Ok z -> cw_ref w = ci_data it /\ 0 <= cw_off w <= zlen (ci_data it)).
    { intros z ->. destruct (negb (en_woff e =? 0)).
      - unfold cw_seek in Ew. cbn [negb Z.eqb] in Ew. cbn [cw_ref cw_new] in Ew. destruct (_ >? _) eqn:Eg; [discriminate|]. destruct (_ <? 0) eqn:El; [discriminate|].
        injection Ew as <- _. cbn [cw_ref cw_off]. rewrite Z.gtb_ltb in Eg. apply Z.ltb_ge in Eg, El. auto.
      - injection Ew as <- _. cbn [cw_ref cw_off cw_new]. unfold zlen. split; [reflexivity|lia]. }
    destruct r2 as [z| | |]; try (intros H; injection H as <- <-; split; [exact H1|discriminate]).
    intros H; injection H as <- <-. destruct (Hw z eq_refl) as [Hr Ho].
    split.
    - eapply step_trans; [exact H1|]. intros [A1 A2 A3]. split; [constructor|split]; cbn [cs_done cs_heap cs_ws]; auto.
      + intros h w' j Hh. destruct (Nat.lt_ge_cases h (length (cs_ws s1))) as [Hl|Hl].
        * rewrite nth_error_app1 in Hh by exact Hl. eauto.
        * rewrite nth_error_app2 in Hh by exact Hl. destruct (h - length (cs_ws s1))%nat as [|x]; cbn in Hh; [|destruct x; discriminate].
          injection Hh as <- <-. rewrite Hr. split; [exact Ho|eapply A1; exact Hd].
      + intros h p (w' & j & Hh & X). exists w', j. cbn [cs_ws cs_done]. split; [|exact X]. rewrite nth_error_app1; [exact Hh|].
        apply nth_error_Some. congruence.
    - intros _ w0 Hw0 (it' & Ha' & He). injection Hw0 as <-. exists w, i. cbn [cs_ws cs_done]. rewrite nth_error_app2, Nat.sub_diag by lia.
      assert (it' = it) by congruence. subst it'. split; [reflexivity|]. split; [congruence|exact Hd].
  Qed.

  Lemma write_step s h d s' x : k_write SK s h d = (s', x) -> step s s' /\ (sane s -> forall p, writes s h p -> touched s' p).
  Proof.
    cbn [k_write checker_sink]. destruct (nth_error (cs_ws s) h) as [[w i]|] eqn:Eh.
    2:{ intros H; injection H as <- _. split; [apply step_refl|]. intros _ p (w & i & Hw & _). congruence. }
    unfold cw_write. set (di1 := match nth_error (cs_heap s) i with Some d0 => _ | None => None end).
    destruct (cw_loop (cw_ref w) (cw_off w) d) as [[o n] r] eqn:El.
    set (di2 := match r with Ok _ => match di1 with Some d0 => Some (if o >? di_max d0 then MkDitem (di_min d0) o (di_link d0) else d0) | None => None end | _ => di1 end).
    assert (E : k_write SK s h d = (s', x) -> s' = MkCs (cs_done s) (match di2 with Some d0 => set_nth (cs_heap s) i d0 | None => cs_heap s end) (set_nth (cs_ws s) h (MkCw (cw_ref w) o, i))).
    { cbn [k_write checker_sink]. rewrite Eh. unfold cw_write. fold di1. rewrite El. unfold di2. destruct r; intros H; injection H as <- _; reflexivity. }
    intros H. assert (Hs' : s' = MkCs (cs_done s) (match di2 with Some d0 => set_nth (cs_heap s) i d0 | None => cs_heap s end) (set_nth (cs_ws s) h (MkCw (cw_ref w) o, i))).
    { apply E. cbn [k_write checker_sink]. rewrite Eh. unfold cw_write. fold di1. rewrite El. exact H. }
    clear E H. subst s'.
    assert (Hm : sane s -> exists d2, di2 = Some d2 /\ (di_min (nth i (cs_heap s) empty_ditem) = 0 -> di_min d2 = 0) /\ (0 <= di_min d2 /\ 0 <= di_max d2) /\ (cw_ref w = [] -> di_min d2 = 0)).
    { intros [A1 A2 A3]. specialize (A3 i). destruct (A2 _ _ _ Eh) as [Ho Hi]. pose proof (cw_loop_range _ _ _ _ _ _ Ho El) as Ho2. destruct (nth_error (cs_heap s) i) as [d0|] eqn:En; [|apply nth_error_None in En; lia].
      assert (Hn : nth i (cs_heap s) empty_ditem = d0) by (apply nth_error_nth; exact En). rewrite Hn in *.
      assert (Hd1 : exists d1, di1 = Some d1 /\ di_min d1 = Z.min (cw_off w) (di_min d0) /\ di_max d1 = di_max d0).
      { unfold di1. eexists. split; [reflexivity|]. destruct (cw_off w <? di_min d0) eqn:Ec; [apply Z.ltb_lt in Ec; cbn [di_min di_max]; lia|apply Z.ltb_ge in Ec; lia]. }
      destruct Hd1 as (d1 & Hd1 & Hm1 & Hx1). unfold di2. rewrite Hd1.
      assert (Hx : exists d2, match r with Ok _ => Some (if o >? di_max d1 then MkDitem (di_min d1) o (di_link d1) else d1) | _ => Some d1 end = Some d2 /\ di_min d2 = di_min d1 /\ 0 <= di_max d2).
      { destruct r; eexists; (split; [reflexivity|]); try (split; [reflexivity|lia]). destruct (_ >? _); cbn [di_min di_max]; split; lia. }
      destruct Hx as (d2 & -> & Hm2 & Hx2). exists d2. split; [reflexivity|]. rewrite Hm2, Hm1. split; [lia|]. split; [lia|].
      intros Hr. rewrite Hr in Ho. unfold zlen in Ho. cbn [length] in Ho. lia. }
    split.
    - intros Hsn. destruct (Hm Hsn) as (d2 & -> & Hz & Hp2 & _). destruct Hsn as [A1 A2 A3]. destruct (A2 _ _ _ Eh) as [Ho Hi].
      split; [constructor|split]; cbn [cs_done cs_heap cs_ws]; rewrite ?set_nth_length; auto.
      + intros h' w' j Hh'. destruct (Nat.eq_dec h h') as [<-|Hne].
        * rewrite set_nth_same in Hh' by (apply nth_error_Some; congruence). injection Hh' as <- <-. cbn [cw_off cw_ref].
          split; [eapply cw_loop_range; [exact Ho|exact El]|exact Hi].
        * rewrite set_nth_other in Hh' by exact Hne. eauto.
      + intros j. destruct (Nat.eq_dec i j) as [<-|Hne]; [rewrite nth_set_same by exact Hi; exact Hp2|rewrite nth_set_other by exact Hne; apply A3].
      + intros p (j & Hp & Hj). exists j. cbn [cs_done cs_heap]. split; [exact Hp|].
        destruct (Nat.eq_dec i j) as [<-|Hne]; [rewrite nth_set_same by exact Hi; auto|rewrite nth_set_other by exact Hne; exact Hj].
      + intros h' p (w' & j & Hh' & Hr & Hp). destruct (Nat.eq_dec h h') as [<-|Hne].
        * assert (Hq : w' = w /\ j = i) by (rewrite Eh in Hh'; injection Hh' as -> ->; auto). destruct Hq as [-> ->].
          exists (MkCw (cw_ref w) o), i. cbn [cs_ws cs_done cw_ref]. rewrite set_nth_same by (apply nth_error_Some; congruence). auto.
        * exists w', j. cbn [cs_ws cs_done]. rewrite set_nth_other by exact Hne. auto.
    - intros Hsn p (w' & j & Hh' & Hr & Hp). assert (Hq : w' = w /\ j = i) by (rewrite Eh in Hh'; injection Hh' as -> ->; auto). destruct Hq as [-> ->].
      destruct (Hm Hsn) as (d2 & -> & _ & _ & Hz).
      exists i. cbn [cs_done cs_heap]. split; [exact Hp|]. rewrite nth_set_same by (eapply sn_done; eauto). apply Hz. exact Hr.
  Qed.
End Checker.

(** A copy that ends in success has written at least once. *)
Lemma copy_touch {X} (E : cenv X) (P T : X -> Prop) :
  (forall x n, P x -> P (fst (ce_read E x n)) /\ (T x -> T (fst (ce_read E x n)))) ->
  (forall x d, P x -> P (fst (ce_write E x d)) /\ T (fst (ce_write E x d))) ->
  (forall x n, P x -> P (fst (ce_should E x n)) /\ (T x -> T (fst (ce_should E x n)))) ->
  (forall x, P x -> P (ce_want E x) /\ (T x -> T (ce_want E x))) ->
  (forall x, P x -> P (ce_emit E x) /\ (T x -> T (ce_emit E x))) ->
  forall fuel x pc, P x -> P (fst (copy_loop E fuel x pc)) /\
    (ce_stopped E x = false -> snd (copy_loop E fuel x pc) = Ok tt -> T (fst (copy_loop E fuel x pc))).
Proof.
  intros H1 H2 H3 H4 H5 fuel x pc Hx. split; [apply copy_loop_keeps; intros; auto; try (apply H1; assumption); try (apply H2; assumption); try (apply H3; assumption); try (apply H4; assumption); apply H5; assumption|].
  intros Hs. destruct fuel as [|f]; cbn [copy_loop]; rewrite Hs; [discriminate|].
  assert (Hst : match copy_step E x pc with (x', inl _) => P x' /\ T x' | (x', inr (Ok _)) => T x' | _ => True end).
  { unfold copy_step. pose proof (H1 x copy_buf Hx) as [K1 _]. destruct (ce_read E x copy_buf) as [x1 rr]. cbn [fst] in K1.
    destruct rr as [d re| |]; try exact Logic.I.
    destruct (H2 x1 d K1) as [K2 K3]. destruct (ce_write E x1 d) as [x2 [m we]]. cbn [fst] in K2, K3.
    destruct we; [exact Logic.I|].
    set (x3 := if _ >? _ then ce_emit E x2 else x2).
    assert (H6 : P x3 /\ T x3) by (unfold x3; destruct (_ >? _); [destruct (H5 x2 K2)|]; auto). destruct H6 as [K4 K5].
    destruct re as [e|]; [destruct e; auto|].
    destruct (H3 x3 (zlen d) K4) as [K6 K7]. destruct (ce_should E x3 (zlen d)) as [x4 b]. cbn [fst] in *. destruct b; [destruct (H4 x4 K6)|]; auto. }
  destruct (copy_step E x pc) as [x' [pc'|r]]; cbn [fst snd].
  - intros _. refine (proj2 (copy_loop_keeps E (fun y => P y /\ T y) _ _ _ _ _ f x' pc' Hst)).
    + intros y n [A B]. destruct (H1 y n A). auto.
    + intros y d [A B]. exact (H2 y d A).
    + intros y n [A B]. destruct (H3 y n A). auto.
    + intros y [A B]. destruct (H4 y A). auto.
    + intros y [A B]. destruct (H5 y A). auto.
  - intros ->. exact Hst.
Qed.

Lemma kept_case {CK DT T} (c : option (eckpt CK DT)) (log : list (eckpt CK DT * T)) : kept c log = c \/ exists cs, In cs log /\ kept c log = Some (fst cs).
Proof.
  unfold kept. destruct (rev log) as [|[c' s'] t] eqn:Er; [left; reflexivity|]. right. exists (c', s'). split; [|reflexivity].
  apply in_rev. rewrite Er. left. reflexivity.
Qed.

(** ** Zip *)
Section Zip.
  Context (items : list (bytes * citem)) (C : codec) (fuel0 : nat) (SV : saver (zck C fuel0) unit) (files : list zfile).
  Notation SK := (checker_sink items).
  Notation sane := sane.
  Notation zeck := (zeck C fuel0).
  Notation zx := (zx SK C fuel0 SV).
  Notation x_sink := (x_sink SK C fuel0 SV).
  Notation x_ck := (x_ck SK C fuel0 SV).
  Notation x_log := (x_log SK C fuel0 SV).

  (** the files that are copied through a source and should be empty *)
  Definition zwants (zf : zfile) : Prop :=
    en_kind (zip_entry_of zf) = EkFile /\ (zf_method zf =? zip_store) || (zf_method zf =? zip_deflate) = true /\ empty_at items (zf_name zf).
  Definition zdone (s : cstate) (n : nat) : Prop := forall j zf, (j < n)%nat -> nth_error files j = Some zf -> zwants zf -> touched s (zf_name zf).
  Definition zentry_at (i : nat) (e : entry) : Prop :=
    forall zf, nth_error files i = Some zf -> en_path e = zf_name zf /\ en_kind e = en_kind (zip_entry_of zf).
  Definition zck_ok (s : cstate) (c : zeck) : Prop :=
    exists n, ec_index c = Z.of_nat n /\ zdone s n /\ forall e, ec_entry c = Some e -> zentry_at n e.

  Lemma set_woff_at n (c : zeck) z : (forall e, ec_entry c = Some e -> zentry_at n e) -> forall e, ec_entry (ck_set_woff C fuel0 c z) = Some e -> zentry_at n e.
  Proof.
    intros H e. unfold ck_set_woff. cbn [ec_entry]. destruct (ec_entry c) as [e0|]; cbn [option_map]; intros E; [|discriminate E].
    injection E as <-. exact (H e0 eq_refl).
  Qed.

  Lemma zdone_step s s' n : step s s' -> sane s -> zdone s n -> zdone s' n.
  Proof. intros Hst Hs H j zf Hj Hz Hw. apply (Hst Hs). eapply H; eauto. Qed.
  Lemma zck_step s s' c : step s s' -> sane s -> zck_ok s c -> zck_ok s' c.
  Proof. intros Hst Hs (n & A & B & D). exists n. split; [exact A|]. split; [eapply zdone_step; eauto|exact D]. Qed.

  (** while entry n is worked on *)
  Definition PX (n : nat) (x : zx) : Prop :=
    sane (x_sink x) /\ zdone (x_sink x) n /\ (forall cs, In cs (x_log x) -> zck_ok (x_sink x) (fst cs)).
  Definition PE (n : nat) (x : zx) : Prop :=
    PX n x /\ ec_index (x_ck x) = Z.of_nat n /\ forall e, ec_entry (x_ck x) = Some e -> zentry_at n e.

  Lemma PX_step n x s' : PX n x -> step (x_sink x) s' -> PX n (zx_sink SK C fuel0 SV x s').
  Proof.
    intros (A & B & D) Hst. split; [exact (proj1 (Hst A))|]. split; [eapply zdone_step; eauto|].
    intros cs Hc. cbn in Hc |- *. eapply zck_step; eauto.
  Qed.
  Lemma PE_step n x s' : PE n x -> step (x_sink x) s' -> PE n (zx_sink SK C fuel0 SV x s').
  Proof. intros [A B] Hst. split; [apply PX_step; auto|exact B]. Qed.

  Section Copy.
    Context (n : nat) (p : bytes) (w : nat).
    Definition PW (x : zx) : Prop := PE n x /\ (empty_at items p -> writes (x_sink x) w p).
    Definition TW (x : zx) : Prop := empty_at items p -> touched (x_sink x) p.

    Lemma on_save_touch {CK} (inj : sckpt CK -> sckpt (zck C fuel0)) done total c x : PW x ->
      PW (fst (zip_on_save SK C fuel0 SV inj w done total c x)) /\ (TW x -> TW (fst (zip_on_save SK C fuel0 SV inj w done total c x))).
    Proof.
      intros [[[A [B D]] [E1 E2]] F]. unfold zip_on_save. cbn [k_sync checker_sink].
      set (c2 := MkEck _ _ _ _ _). destruct (sv_save SV _ _) as [v' r].
      assert (Hl : forall cs, In cs (x_log x ++ [(c2, x_sink x)]) -> zck_ok (x_sink x) (fst cs)).
      { intros cs Hin. apply in_app_iff in Hin. destruct Hin as [Hin|[<-|[]]]; [apply D; exact Hin|]. cbn [fst].
        exists n. split; [exact E1|]. split; [exact B|exact E2]. }
      destruct r as [[]|]; cbn [fst]; (split; [split; [split; [split; [exact A|split; [exact B|exact Hl]]|split; [exact E1|exact E2]]|exact F]|intros HT; exact HT]).
    Qed.

    Lemma copy_touch_zip k inj done total fuel src x x' src' r : PW x ->
      copier_do (zip_cenv SK C fuel0 SV (stk_source k) inj w done total) fuel (src, x) = ((src', x'), r) ->
      PE n x' /\ (r = Ok tt -> TW x').
    Proof.
      intros HP Hc. unfold copier_do in Hc.
      pose proof (copy_touch (zip_cenv SK C fuel0 SV (stk_source k) inj w done total) (fun sx => PW (snd sx)) (fun sx => TW (snd sx))) as H.
      specialize (H ltac:(
        intros [s y] m HPy; cbn [ce_read zip_cenv fst snd];
        pose proof (stk_read_keeps k (zip_on_save SK C fuel0 SV inj w done total) PW (fun c z Hz => proj1 (on_save_touch inj done total c z Hz)) s y m HPy) as K1;
        pose proof (fun HT => proj2 (stk_read_keeps k (zip_on_save SK C fuel0 SV inj w done total) (fun z => PW z /\ TW z)
          (fun c z Hz => conj (proj1 (on_save_touch inj done total c z (proj1 Hz))) (proj2 (on_save_touch inj done total c z (proj1 Hz)) (proj2 Hz))) s y m (conj HPy HT))) as K2;
        destruct (s_read _ _ s y m) as [[s1 y1] r1]; cbn [fst snd] in *; split; [exact K1|exact K2])).
      specialize (H ltac:(
        intros [s y] d HPy; cbn [ce_write zip_cenv fst snd]; destruct HPy as [HE HW];
        destruct (k_write SK (x_sink y) w d) as [s1 [[m adv] er]] eqn:Ew; cbn [fst snd];
        destruct (write_step items _ _ _ _ _ Ew) as [Hst Ht]; pose proof (proj1 (proj1 HE)) as Hsn;
        split; [split; [|intros He; apply (proj2 (proj2 (Hst Hsn))); apply HW; exact He]|intros He; apply (Ht Hsn); apply HW; exact He];
        pose proof (PE_step n y s1 HE Hst) as [HX [HI HE2]]; split; [exact HX|]; split; [exact HI|];
        exact (set_woff_at n (x_ck y) _ (proj2 (proj2 HE))))).
      specialize (H ltac:(intros [s y] m HPy; cbn [ce_should zip_cenv fst snd]; destruct (sv_should SV _ _) as [v1 b1]; cbn [fst snd]; split; [exact HPy|intros HT; exact HT])).
      specialize (H ltac:(intros [s y] HPy; cbn [ce_want zip_cenv fst snd]; split; [exact HPy|intros HT; exact HT])).
      specialize (H ltac:(intros [s y] HPy; cbn [ce_emit zip_cenv fst snd]; split; [exact HPy|intros HT; exact HT])).
      specialize (H fuel (ce_setstop (zip_cenv SK C fuel0 SV (stk_source k) inj w done total) false (src, x)) 0 HP).
      rewrite Hc in H. cbn [fst snd] in H. destruct H as [H1 H2]. split; [exact (proj1 H1)|]. apply H2. reflexivity.
    Qed.
  End Copy.

  Lemma io_copy_touch n w fin : forall chunks x, PE n x -> PE n (fst (zip_io_copy SK C fuel0 SV w chunks fin x)).
  Proof.
    induction chunks as [|d ds IH]; intros x HP; cbn [zip_io_copy]; [exact HP|].
    destruct (k_write SK (x_sink x) w d) as [s1 [[m adv] er]] eqn:Ew. destruct (write_step items _ _ _ _ _ Ew) as [Hst _].
    assert (H1 : PE n (zx_ck SK C fuel0 SV (zx_sink SK C fuel0 SV x s1) (ck_set_woff C fuel0 (x_ck x) (ck_woff C fuel0 (x_ck x) + adv)))).
    { pose proof (PE_step n x s1 HP Hst) as [HX [HI HE2]]; split; [exact HX|]; split; [exact HI|].
      exact (set_woff_at n (x_ck x) _ (proj2 (proj2 HP))). }
    destruct er; [exact H1|]. destruct (_ =? _)%nat; [apply IH|]; exact H1.
  Qed.

  Lemma zip_copy_touch n fuel k inj prj rs csize done total e x x' r : PE n x ->
    zip_copy SK C fuel0 SV fuel k inj prj rs csize done total e x = (x', r) ->
    PE n x' /\ (r = Ok tt -> empty_at items (en_path e) -> touched (x_sink x') (en_path e)).
  Proof.
    intros HP. unfold zip_copy. destruct (s_resume _ _ _) as [src1 r1].
    destruct r1 as [off| | |]; try (intros H; injection H as <- <-; split; [exact HP|let Hq := fresh in intros Hq; discriminate Hq]).
    destruct (if off <? en_woff e then _ else _) as [[src2 u] r2].
    destruct r2 as [u2| | |]; try (intros H; injection H as <- <-; split; [exact HP|let Hq := fresh in intros Hq; discriminate Hq]).
    destruct (k_getw SK (x_sink x) e) as [s' rg] eqn:Eg. destruct (getw_step items _ _ _ _ Eg) as [Hst Hw].
    pose proof (PE_step n x s' HP Hst) as HP'.
    destruct rg as [w| | |]; try (intros H; injection H as <- <-; split; [exact HP'|let Hq := fresh in intros Hq; discriminate Hq]).
    destruct (copier_do _ fuel _) as [[src3 x2] r3] eqn:Ec. intros H; injection H as <- <-.
    apply (copy_touch_zip n (en_path e) w) in Ec.
    - destruct Ec as [E1 E2]. split; [exact E1|]. intros Hr. apply E2. destruct r3 as [[]| | |]; try discriminate. reflexivity.
    - split; [exact HP'|]. exact (Hw (proj1 (proj1 HP)) w eq_refl).
  Qed.

  Lemma zip_entry_touch n io fuel zf done total x x' r : PX n x -> (forall e, ec_entry (x_ck x) = Some e -> zentry_at n e) -> nth_error files n = Some zf ->
    zip_entry SK C fuel0 SV io fuel (Z.of_nat n) zf done total x = (x', r) ->
    PX n x' /\ (r = Ok tt -> PX (Datatypes.S n) x').
  Proof.
    intros HX HE Hz H.
    set (e := match ec_entry (x_ck x) with Some e => e | None => zip_entry_of zf end).
    assert (He : zentry_at n e).
    { unfold e. destruct (ec_entry (x_ck x)) as [e0|] eqn:E0; [apply HE; reflexivity|]. intros zf' Hz'. assert (zf' = zf) by congruence. subst zf'. split; reflexivity. }
    assert (HP : PE n (zx_ck SK C fuel0 SV x (MkEck (ec_src (x_ck x)) (Z.of_nat n) (Some e) (ec_prog (x_ck x)) (ec_data (x_ck x))))).
    { split; [exact HX|]. split; [reflexivity|]. intros e0 Hq. injection Hq as <-. exact He. }
    destruct (He zf Hz) as [Hpath Hkind].
    assert (Hnext : forall y, PX n y -> (zwants zf -> touched (x_sink y) (zf_name zf)) -> PX (Datatypes.S n) y).
    { intros y (A & B & D) Ht. split; [exact A|]. split; [|exact D]. intros j zf' Hj Hz' Hw. destruct (Nat.eq_dec j n) as [->|Hne].
      - assert (zf' = zf) by congruence. subst zf'. auto.
      - apply (B j); auto. lia. }
    revert H. unfold zip_entry. cbv zeta. fold e. set (x1 := zx_ck SK C fuel0 SV x _) in *.
    destruct (Z.odd (zf_flags zf)); [intros H; injection H as <- <-; split; [exact HX|discriminate]|].
    destruct (en_kind e) eqn:Ek.
    - destruct (k_mkdir SK (x_sink x1) e) as [s' re] eqn:E. intros H; injection H as <- <-.
      pose proof (PX_step n x1 s' (proj1 HP) (mkdir_step items _ _ _ _ E)) as K. split; [exact K|]. intros _. apply Hnext; [exact K|].
      intros (Hk & _). congruence.
    - destruct (zi_open io) as [[chunks [e'|]]| | |]; try (intros H; injection H as <- <-; split; [exact HX|let Hq := fresh in intros Hq; discriminate Hq]).
      destruct (k_symlink SK (x_sink x1) e (concat chunks)) as [s' re] eqn:E. intros H; injection H as <- <-.
      pose proof (PX_step n x1 s' (proj1 HP) (symlink_step items _ _ _ _ _ E)) as K. split; [exact K|]. intros _. apply Hnext; [exact K|].
      intros (Hk & _). congruence.
    - destruct ((zf_method zf =? zip_store) || (zf_method zf =? zip_deflate)) eqn:Em.
      + destruct (zi_dataoff io) as [off| | |]; try (intros H; injection H as <- <-; split; [exact HX|let Hq := fresh in intros Hq; discriminate Hq]).
        intros H. assert (K : PE n x' /\ (r = Ok tt -> empty_at items (en_path e) -> touched (x_sink x') (en_path e))).
        { destruct (zf_method zf =? zip_store); eapply zip_copy_touch; try exact H; exact HP. }
        destruct K as [K1 K2]. split; [exact (proj1 K1)|]. intros Hr. apply Hnext; [exact (proj1 K1)|].
        intros (_ & _ & Hemp). rewrite <- Hpath in *. exact (K2 Hr Hemp).
      + set (x2 := zx_ck SK C fuel0 SV x1 _).
        assert (HP2 : PE n x2).
        { split; [exact HX|]. split; [reflexivity|]. intros e0 Hq. injection Hq as <-. exact He. }
        destruct (zi_open io) as [[chunks fin]| | |]; try (intros H; injection H as <- <-; split; [exact HX|let Hq := fresh in intros Hq; discriminate Hq]).
        destruct (k_getw SK (x_sink x2) (set_woff e 0)) as [s' rg] eqn:Eg. destruct (getw_step items _ _ _ _ Eg) as [Hst _].
        pose proof (PE_step n x2 s' HP2 Hst) as HP3.
        destruct rg as [w| | |]; try (intros H; injection H as <- <-; split; [exact (proj1 HP3)|let Hq := fresh in intros Hq; discriminate Hq]).
        destruct (zip_io_copy SK C fuel0 SV w chunks fin (zx_sink SK C fuel0 SV x2 s')) as [x3 r3] eqn:Ec.
        pose proof (io_copy_touch n w fin chunks _ HP3) as K. rewrite Ec in K. intros H; injection H as <- <-.
        split; [exact (proj1 K)|]. intros _. apply Hnext; [exact (proj1 K)|]. intros (_ & Hm & _). congruence.
    - intros H; injection H as <- <-. split; [exact HX|]. intros _. apply Hnext; [exact HX|]. intros (Hk & _). congruence.
  Qed.

  Lemma zip_loop_touch io fuel total : forall rest n done x x' r, PX n x -> (forall e, ec_entry (x_ck x) = Some e -> zentry_at n e) -> rest = skipn n files ->
    zip_loop SK C fuel0 SV io fuel rest n done total x = (x', r) ->
    PX n x' /\ (r = Ok tt -> x_stoperr SK C fuel0 SV x' = false -> PX (Nat.max n (length files)) x').
  Proof.
    induction rest as [|zf rest IH]; intros n done x x' r HX HE Hr H; cbn [zip_loop] in H.
    - injection H as <- <-. split; [exact HX|]. intros _ _. assert (Hl : (length files <= n)%nat).
      { assert (length (skipn n files) = 0)%nat by (rewrite <- Hr; reflexivity). rewrite skipn_length in *. lia. }
      rewrite Nat.max_l by exact Hl. exact HX.
    - assert (Hz : nth_error files n = Some zf).
      { rewrite <- (firstn_skipn n files). assert (Hn : (n < length files)%nat).
        { assert (length (skipn n files) = Datatypes.S (length rest)) by (rewrite <- Hr; reflexivity). rewrite skipn_length in *. lia. }
        rewrite nth_error_app2; rewrite firstn_length_le by lia; [|lia]. rewrite Nat.sub_diag, <- Hr. reflexivity. }
      assert (Hrest : rest = skipn (Datatypes.S n) files).
      { clear - Hr. revert files Hr. induction n as [|n IHn]; intros [|f fs] Hr; cbn [skipn] in *; try discriminate; [congruence|]. apply IHn. exact Hr. }
      destruct (x_stoperr SK C fuel0 SV x) eqn:Es; [injection H as <- <-; split; [exact HX|congruence]|].
      destruct (zip_entry SK C fuel0 SV (io n) fuel (Z.of_nat n) zf done total x) as [x1 r1] eqn:E1.
      destruct (zip_entry_touch n _ _ _ _ _ _ _ _ HX HE Hz E1) as [K1 K2].
      destruct r1 as [u| | |]; try (injection H as <- <-; split; [exact K1|let Hq := fresh in intros Hq; discriminate Hq]).
      destruct u. apply IH in H; [|exact (K2 eq_refl)|intros e Hq; discriminate|exact Hrest].
      destruct H as [H1 H2]. split.
      + destruct H1 as (A & B & D). split; [exact A|]. split; [|exact D]. intros j zf' Hj. apply B. lia.
      + intros Ha Hb. specialize (H2 Ha Hb). assert (Hn : (n < length files)%nat) by (apply nth_error_Some; congruence).
        replace (Nat.max n (length files)) with (Nat.max (Datatypes.S n) (length files)) by lia. exact H2.
  Qed.

  Lemma prealloc_all_step : forall fs s s' r, zip_preallocate SK fs s = (s', r) -> step s s'.
  Proof.
    induction fs as [|zf fs IH]; intros s s' r; cbn [zip_preallocate]; [intros H; injection H as <- _; apply step_refl|].
    destruct (en_kind (zip_entry_of zf)); try apply IH.
    destruct (k_prealloc SK s (zip_entry_of zf)) as [s1 [e|]] eqn:E; pose proof (prealloc_step items _ _ _ _ E) as H1.
    - intros H; injection H as <- _. exact H1.
    - intros H. eapply step_trans; [exact H1|eapply IH; exact H].
  Qed.

  Definition zstart_ok (s : cstate) (c : option zeck) : Prop := match c with Some ck => zck_ok s ck | None => True end.

  Lemma zip_resume_touch io fuel c s v out : sane s -> zstart_ok s c -> out = zip_resume SK C fuel0 SV files io fuel c s v ->
    sane (zo_sink _ _ _ _ out) /\ (forall cs, In cs (zo_log _ _ _ _ out) -> zck_ok (zo_sink _ _ _ _ out) (fst cs)) /\ zstart_ok (zo_sink _ _ _ _ out) c /\
    (forall l, zo_res _ _ _ _ out = Ok l -> zdone (zo_sink _ _ _ _ out) (length files)).
  Proof.
    intros Hs Hc Ho. unfold zip_resume in Ho. cbv zeta in Ho. set (ck := match c with Some ck => ck | None => _ end) in Ho.
    revert Ho. match goal with |- out = (let '(_, _) := ?t in _) -> _ => destruct t as [s1 perr] eqn:Ep end. intros Ho.
    assert (H1 : step s s1).
    { destruct c as [ck0|]; [injection Ep as <- _; apply step_refl|eapply prealloc_all_step; exact Ep]. }
    pose proof (proj1 (H1 Hs)) as Hs1.
    assert (Hc1 : zstart_ok s1 c) by (destruct c as [ck0|]; [exact (zck_step _ _ _ H1 Hs Hc)|exact Logic.I]).
    assert (Hck : exists n, ec_index ck = Z.of_nat n /\ zdone s1 n /\ forall e, ec_entry ck = Some e -> zentry_at n e).
    { unfold ck. destruct c as [ck0|]; [exact Hc1|]. exists 0%nat. split; [reflexivity|]. split; [intros j zf Hj; lia|]. intros e H; discriminate H. }
    destruct Hck as (n & Hn & Hd & He).
    destruct perr as [e|]; [subst out; cbn [zo_sink zo_log zo_res]; split; [exact Hs1|]; split; [intros cs []|]; split; [exact Hc1|]; intros l H; discriminate H|].
    rewrite Hn, Nat2Z.id in Ho. destruct (Z.ltb_spec (Z.of_nat n) 0) as [Hneg|_]; [lia|].
    set (x0 := MkZx SK C fuel0 SV s1 ck v false false [] []).
    assert (HX : PX n x0) by (split; [exact Hs1|]; split; [exact Hd|intros cs []]).
    fold x0 in Ho. revert Ho.
    match goal with |- context [zip_loop SK C fuel0 SV io fuel (skipn n files) n ?d ?t x0] => destruct (zip_loop SK C fuel0 SV io fuel (skipn n files) n d t x0) as [x r] eqn:El end. intros Ho.
    destruct (zip_loop_touch io fuel _ _ n _ x0 x r HX He eq_refl El) as [K1 K2].
    assert (Hst : zstart_ok (x_sink x) c).
    { destruct c as [ck0|]; [|exact Logic.I]. destruct K1 as (A & B & D). exists n. split; [exact Hn|]. split; [exact B|exact He]. }
    subst out. cbn [zo_sink zo_log zo_res]. destruct K1 as (A & B & D). split; [exact A|]. split; [exact D|]. split; [exact Hst|].
    intros l Hl. destruct r as [[]| | |]; try discriminate Hl. destruct (x_stoperr SK C fuel0 SV x) eqn:Es; [discriminate Hl|].
    destruct (K2 eq_refl eq_refl) as (_ & B2 & _). intros j zf Hj. apply B2. lia.
  Qed.

  Lemma zip_again_touch io fuel : forall left k c s v n out l, sane s -> zstart_ok s c ->
    zip_again SK C fuel0 SV files io fuel left k c s v = Some (n, out) -> zo_res _ _ _ _ out = Ok l -> sane (zo_sink _ _ _ _ out) /\ zdone (zo_sink _ _ _ _ out) (length files).
  Proof.
    assert (Hk : forall k c s v, sane s -> zstart_ok s c -> let out := zip_resume SK C fuel0 SV files (io k) fuel c s v in
      sane (zo_sink _ _ _ _ out) /\ zstart_ok (zo_sink _ _ _ _ out) (kept c (zo_log _ _ _ _ out)) /\ (forall l, zo_res _ _ _ _ out = Ok l -> zdone (zo_sink _ _ _ _ out) (length files))).
    { intros k c s v Hs Hc out. destruct (zip_resume_touch (io k) fuel c s v out Hs Hc eq_refl) as (A & B & D & E). split; [exact A|]. split; [|exact E].
      destruct (kept_case c (zo_log _ _ _ _ out)) as [Hq|(cs & Hin & Hq)]; rewrite Hq; [exact D|exact (B cs Hin)]. }
    induction left as [|left IH]; intros k c s v n out l Hs Hc H Hl; cbn [zip_again] in H; cbv zeta in H; destruct (Hk k c s v Hs Hc) as (A & B & D).
    - destruct (zo_res _ _ _ _ (zip_resume SK C fuel0 SV files (io k) fuel c s v)) as [l0|[]| |] eqn:Er; try discriminate H; injection H as <- <-; try congruence.
      split; [exact A|]. apply (D l0). reflexivity.
    - destruct (zo_res _ _ _ _ (zip_resume SK C fuel0 SV files (io k) fuel c s v)) as [l0|[]| |] eqn:Er;
        try (injection H as <- <-; congruence).
      + injection H as <- <-. split; [exact A|]. apply (D l0). reflexivity.
      + eapply IH; [exact A|exact B|exact H|exact Hl].
  Qed.
End Zip.

(** ** Tar *)
Section Tar.
  Context (items : list (bytes * citem)) (F : tfmt) (k : stk) (SV : saver (s_ck (stk_source k)) tstate) (c0 : option (teck (stk_source k))).
  Notation SK := (checker_sink items).
  Notation S := (stk_source k).
  Notation teck := (teck S).
  Notation tx := (tx SK S SV).
  Notation t_sink := (t_sink SK S SV).
  Notation t_ck := (t_ck SK S SV).
  Notation t_state := (t_state SK S SV).
  Notation t_log := (t_log SK S SV).

  Definition all_touched (s : cstate) (l : list entry) : Prop := forall e, In e l -> empty_at items (en_path e) -> touched s (en_path e).
  Definition ts_ok (s : cstate) (ts : tstate) : Prop := forall l, ts_result ts = Some l -> all_touched s l.
  Definition tck_ok (s : cstate) (c : teck) : Prop := forall ts, ec_data c = Some ts -> ts_ok s ts.
  Definition QX (x : tx) : Prop :=
    sane (t_sink x) /\ ts_ok (t_sink x) (t_state x) /\ (forall cs, In cs (t_log x) \/ c0 = Some (fst cs) -> tck_ok (t_sink x) (fst cs)).

  Lemma ts_step s s' ts : step s s' -> sane s -> ts_ok s ts -> ts_ok s' ts.
  Proof. intros Hst Hs H l Hl e He Hem. apply (Hst Hs). eapply H; eauto. Qed.
  Lemma tck_step s s' c : step s s' -> sane s -> tck_ok s c -> tck_ok s' c.
  Proof. intros Hst Hs H ts Hts. eapply ts_step; eauto. Qed.
  Lemma QX_step x s' : QX x -> step (t_sink x) s' -> QX (tx_sink SK S SV x s').
  Proof.
    intros (A & B & D) Hst. split; [exact (proj1 (Hst A))|]. split; [eapply ts_step; eauto|].
    intros cs Hc. cbn in Hc |- *. eapply tck_step; eauto.
  Qed.

  Section Copy.
    Context (p : bytes) (w : nat).
    Definition QW (x : tx) : Prop :=
      QX x /\ (forall e, ec_entry (t_ck x) = Some e -> en_path e = p) /\ (empty_at items p -> writes (t_sink x) w p).
    Definition UW (x : tx) : Prop := empty_at items p -> touched (t_sink x) p.

    Lemma t_on_save_touch prog s c x : QW x ->
      QW (fst (tar_on_save SK S SV prog s c x)) /\ (UW x -> UW (fst (tar_on_save SK S SV prog s c x))).
    Proof.
      intros [[A [B D]] [E1 E2]]. unfold tar_on_save. cbv zeta. set (c2 := MkEck _ _ _ _ _). destruct (sv_save SV _ _) as [v' r].
      assert (Hl : forall cs, In cs (t_log x ++ [(c2, t_sink x)]) \/ c0 = Some (fst cs) -> tck_ok (t_sink x) (fst cs)).
      { intros cs [Hin|Hin]; [|apply D; right; exact Hin]. apply in_app_iff in Hin. destruct Hin as [Hin|[<-|[]]]; [apply D; left; exact Hin|]. cbn [fst].
        intros ts Hts. unfold c2 in Hts. cbn [ec_data] in Hts. injection Hts as <-. intros l Hl. exact (B l Hl). }
      destruct r as [[]|]; cbn [fst]; (split; [split; [split; [exact A|split; [exact B|exact Hl]]|split; [exact E1|exact E2]]|intros HT; exact HT]).
    Qed.

    Lemma sr_read_touch prog s src x n : QW x ->
      let x' := snd (fst (sr_read F S (tar_on_save SK S SV prog s) src s x n)) in QW x' /\ (UW x -> UW x').
    Proof.
      intros HP. unfold sr_read. destruct (Nat.min n (sr_nb s)) as [|m]; [split; [exact HP|intros HT; exact HT]|].
      pose proof (stk_read_keeps k (tar_on_save SK S SV prog s) QW (fun c z Hz => proj1 (t_on_save_touch prog s c z Hz)) src x (Datatypes.S m) HP) as K1.
      pose proof (fun HT => proj2 (stk_read_keeps k (tar_on_save SK S SV prog s) (fun z => QW z /\ UW z)
          (fun c z Hz => conj (proj1 (t_on_save_touch prog s c z (proj1 Hz))) (proj2 (t_on_save_touch prog s c z (proj1 Hz)) (proj2 Hz))) src x (Datatypes.S m) (conj HP HT))) as K2.
      destruct (s_read S (tar_on_save SK S SV prog s) src x (Datatypes.S m)) as [[src1 x1] r1]. cbn [fst snd] in K1, K2.
      destruct r1; cbn [fst snd]; split; assumption.
    Qed.

    Lemma copy_touch_tar fuel src s x x' src' s' r : QW x ->
      copier_do (tar_cenv SK F S SV w) fuel (src, s, x) = ((src', s', x'), r) -> QW x' /\ (r = Ok tt -> UW x').
    Proof.
      intros HP Hc. unfold copier_do in Hc.
      pose proof (copy_touch (tar_cenv SK F S SV w) (fun X => QW (snd X)) (fun X => UW (snd X))) as H.
      specialize (H ltac:(
        intros [[sr0 s0] y] m HPy; cbn [ce_read tar_cenv fst snd];
        pose proof (sr_read_touch (s_progress S sr0) s0 sr0 y m HPy) as K; cbv zeta in K;
        destruct (sr_read F S _ sr0 s0 y m) as [[[s1 s2] y1] r1]; cbn [fst snd] in *; exact K)).
      specialize (H ltac:(
        intros [[sr0 s0] y] d HPy; cbn [ce_write tar_cenv fst snd]; destruct HPy as [HE [HI HW]];
        destruct (k_write SK (t_sink y) w d) as [s1 [[m adv] er]] eqn:Ew; cbn [fst snd];
        destruct (write_step items _ _ _ _ _ Ew) as [Hst Ht]; pose proof (proj1 HE) as Hsn;
        split; [split; [exact (QX_step y s1 HE Hst)|split; [|intros He; apply (proj2 (proj2 (Hst Hsn))); apply HW; exact He]]|intros He; apply (Ht Hsn); apply HW; exact He];
        intros e; cbn [t_ck tx_ck tx_sink]; unfold tck_set_woff; cbn [ec_entry]; destruct (ec_entry (t_ck y)) as [e0|] eqn:E0; cbn [option_map]; intros He; [|discriminate He];
        injection He as <-; exact (HI e0 E0))).
      specialize (H ltac:(intros [[sr0 s0] y] m HPy; cbn [ce_should tar_cenv fst snd]; destruct (sv_should SV _ _) as [v1 b1]; cbn [fst snd]; split; [exact HPy|intros HT; exact HT])).
      specialize (H ltac:(intros [[sr0 s0] y] HPy; cbn [ce_want tar_cenv fst snd]; split; [exact HPy|intros HT; exact HT])).
      specialize (H ltac:(intros [[sr0 s0] y] HPy; cbn [ce_emit tar_cenv fst snd]; split; [exact HPy|intros HT; exact HT])).
      specialize (H fuel (ce_setstop (tar_cenv SK F S SV w) false (src, s, x)) 0 HP).
      rewrite Hc in H. cbn [fst snd] in H. destruct H as [H1 H2]. split; [exact H1|]. apply H2. reflexivity.
    Qed.
  End Copy.

  Lemma tar_extract_touch fuel src s e x src' s' x' r : QX x -> ec_entry (t_ck x) = Some e ->
    tar_extract SK F S SV fuel src s e x = (src', s', x', r) -> QX x'.
  Proof.
    intros HX He. unfold tar_extract. destruct (en_kind e).
    - destruct (k_mkdir SK (t_sink x) e) as [st' [er|]] eqn:E; intros H; injection H as _ _ <- _;
        exact (QX_step x st' HX (mkdir_step items _ _ _ _ E)).
    - destruct (k_symlink SK (t_sink x) e (en_link e)) as [st' [er|]] eqn:E; intros H; injection H as _ _ <- _;
        exact (QX_step x st' HX (symlink_step items _ _ _ _ _ E)).
    - destruct (k_getw SK (t_sink x) e) as [st' rg] eqn:Eg. destruct (getw_step items _ _ _ _ Eg) as [Hst Hw].
      pose proof (QX_step x st' HX Hst) as HX1.
      destruct rg as [w| | |]; try (intros H; injection H as _ _ <- _; exact HX1).
      destruct (copier_do (tar_cenv SK F S SV w) fuel _) as [[[src2 s2] x2] r2] eqn:Ec.
      apply (copy_touch_tar (en_path e) w) in Ec.
      2:{ split; [exact HX1|]. split; [|exact (Hw (proj1 HX) w eq_refl)]. intros e0 H0. cbn in H0. congruence. }
      destruct Ec as [[(A & B & D) [HI _]] HU].
      destruct r2 as [[]| | |]; intros H; injection H as _ _ <- _; try (split; [exact A|split; [exact B|exact D]]).
      split; [exact A|]. split; [|exact D]. intros l Hl. cbn in Hl. destruct (ts_result (t_state x2)) as [l0|] eqn:E0; [|discriminate Hl].
      cbn [option_map] in Hl. injection Hl as <-. specialize (B l0 E0). destruct (ec_entry (t_ck x2)) as [e'|] eqn:Ee; [|exact B].
      intros e1 H1 Hem. apply in_app_iff in H1. destruct H1 as [H1|[<-|[]]]; [exact (B e1 H1 Hem)|].
      rewrite (HI e' eq_refl) in *. exact (HU eq_refl Hem).
    - intros H; injection H as _ _ <- _. exact HX.
  Qed.

  Lemma tar_iter_touch fuel src s i x src' s' x' r : QX x -> tar_iter SK F S SV fuel src s i x = (src', s', x', r) -> QX x'.
  Proof.
    intros HX. unfold tar_iter. cbv zeta. cbn [ec_entry]. destruct (ec_entry (t_ck x)) as [e|] eqn:Ee.
    - apply tar_extract_touch; [exact HX|reflexivity].
    - destruct (sr_next F S fuel src s) as [[src1 s1] rn]. destruct rn as [h|er| |]; try (intros H; injection H as _ _ <- _; exact HX).
      + destruct (tar_entry_of h) as [e|]; [|intros H; injection H as _ _ <- _; exact HX]. apply tar_extract_touch; [exact HX|reflexivity].
      + destruct er; intros H; injection H as _ _ <- _; exact HX.
  Qed.

  Lemma tar_loop_touch fuel : forall lf src s i x x' r, QX x -> tar_loop SK F S SV fuel lf src s i x = (x', r) -> QX x'.
  Proof.
    induction lf as [|lf IH]; intros src s i x x' r HX; cbn [tar_loop]; destruct (t_stoperr SK S SV x); try (intros H; injection H as <- _; exact HX).
    destruct (tar_iter SK F S SV fuel src s i x) as [[[src1 s1] x1] r1] eqn:E. pose proof (tar_iter_touch _ _ _ _ _ _ _ _ _ HX E) as H1.
    destruct r1; try (intros H; injection H as <- _; exact H1). apply IH. exact H1.
  Qed.

  Definition tstart_ok (s : cstate) (c : option teck) : Prop := match c with Some ck => tck_ok s ck | None => True end.

  Lemma tar_run_touch fuel src s ck ts keep st v out : sane st -> ts_ok st ts -> tstart_ok st c0 ->
    out = tar_run SK F S SV fuel src s ck ts keep st v ->
    sane (to_sink _ _ _ out) /\ (forall cs, In cs (to_log _ _ _ out) -> tck_ok (to_sink _ _ _ out) (fst cs)) /\ tstart_ok (to_sink _ _ _ out) c0 /\
    (forall l, to_res _ _ _ out = Ok l -> all_touched (to_sink _ _ _ out) l).
  Proof.
    intros Hs Hts Hc Ho. unfold tar_run in Ho. revert Ho.
    match goal with |- out = (let '(_, _) := ?t in _) -> _ => destruct t as [x r] eqn:El end. intros Ho.
    apply tar_loop_touch in El.
    2:{ split; [exact Hs|]. split; [exact Hts|]. intros cs [[]|Hq]. cbn [Tar.t_sink]. unfold tstart_ok in Hc. rewrite Hq in Hc. exact Hc. }
    destruct El as (A & B & D). subst out. cbn [to_sink to_log to_res].
    split; [exact A|]. split; [intros cs Hin; apply D; left; exact Hin|]. split.
    { unfold tstart_ok. destruct c0 as [ck1|] eqn:E0; [|exact Logic.I]. apply (D (ck1, t_sink x)). right. reflexivity. }
    intros l Hl.
    assert (Hlx : l = match ts_result (t_state x) with Some l => l | None => [] end).
    { destruct r; try discriminate Hl. destruct (t_stoperr SK S SV x) as [[]|]; try discriminate Hl; injection Hl as <-; reflexivity. }
    subst l. destruct (ts_result (t_state x)) as [l0|] eqn:E0; [exact (B l0 E0)|intros e []].
  Qed.

  Lemma tar_resume_touch src fuel s v out : sane s -> tstart_ok s c0 -> out = tar_resume SK F S SV src fuel c0 s v ->
    sane (to_sink _ _ _ out) /\ (forall cs, In cs (to_log _ _ _ out) -> tck_ok (to_sink _ _ _ out) (fst cs)) /\ tstart_ok (to_sink _ _ _ out) c0 /\
    (forall l, to_res _ _ _ out = Ok l -> all_touched (to_sink _ _ _ out) l).
  Proof.
    intros Hs Hc Ho.
    assert (Hfail : forall c1 r c2, (forall l, r <> Ok l) -> out = MkTout SK S SV s v c1 [] [] r c2 ->
      sane (to_sink _ _ _ out) /\ (forall cs, In cs (to_log _ _ _ out) -> tck_ok (to_sink _ _ _ out) (fst cs)) /\ tstart_ok (to_sink _ _ _ out) c0 /\
      (forall l, to_res _ _ _ out = Ok l -> all_touched (to_sink _ _ _ out) l)).
    { intros c1 r c2 Hr ->. cbn [to_sink to_log to_res]. split; [exact Hs|]. split; [intros cs []|]. split; [exact Hc|]. intros l Hl. destruct (Hr l Hl). }
    unfold tar_resume in Ho. cbv zeta in Ho. destruct (tar_point S c0) as [[[ck ts] sr0]|] eqn:Ep.
    - assert (Hts : ts_ok s ts).
      { unfold tar_point in Ep. unfold tstart_ok in Hc. destruct c0 as [ck0|]; [|discriminate Ep]. destruct (ec_data ck0) as [[[l|] [q|]]|] eqn:Ed; try discriminate Ep.
        injection Ep as <- <- <-. exact (Hc _ Ed). }
      destruct (s_resume S src (ec_src ck)) as [src1 ro]. destruct ro as [offset| | |]; try (eapply Hfail; [|exact Ho]; intros l; discriminate).
      destruct (if offset <? sr_off sr0 then _ else _) as [[src2 u] r2].
      destruct r2; try (eapply Hfail; [|exact Ho]; intros l; discriminate).
      eapply tar_run_touch; [exact Hs|exact Hts|exact Hc|exact Ho].
    - destruct (s_resume S src None) as [src1 ro]. destruct ro as [offset| | |]; try (eapply Hfail; [|exact Ho]; intros l; discriminate).
      eapply tar_run_touch; [exact Hs| |exact Hc|exact Ho]. intros l Hl. injection Hl as <-. intros e [].
  Qed.
End Tar.

Lemma tar_again_touch items F k (SV : saver (s_ck (stk_source k)) tstate) src fuel : forall left j c s v n out l, sane s -> tstart_ok items k s c ->
  tar_again (checker_sink items) F (stk_source k) SV src fuel left j c s v = Some (n, out) -> to_res _ _ _ out = Ok l -> sane (to_sink _ _ _ out) /\ all_touched items (to_sink _ _ _ out) l.
Proof.
  assert (Hk : forall j c s v, sane s -> tstart_ok items k s c -> let out := tar_resume (checker_sink items) F (stk_source k) SV (src j) fuel c s v in
    sane (to_sink _ _ _ out) /\ tstart_ok items k (to_sink _ _ _ out) (kept c (to_log _ _ _ out)) /\ (forall l, to_res _ _ _ out = Ok l -> all_touched items (to_sink _ _ _ out) l)).
  { intros j c s v Hs Hc out. destruct (tar_resume_touch items F k SV c (src j) fuel s v out Hs Hc eq_refl) as (A & B & D & E). split; [exact A|]. split; [|exact E].
    destruct (kept_case c (to_log _ _ _ out)) as [Hq|(cs & Hin & Hq)]; rewrite Hq; [exact D|exact (B cs Hin)]. }
  induction left as [|left IH]; intros j c s v n out l Hs Hc H Hl; cbn [tar_again] in H; cbv zeta in H; destruct (Hk j c s v Hs Hc) as (A & B & D).
  - destruct (to_res _ _ _ (tar_resume (checker_sink items) F (stk_source k) SV (src j) fuel c s v)) as [l0|[]| |] eqn:Er; try discriminate H; injection H as <- <-; (split; [exact A|apply (D l); congruence]).
  - destruct (to_res _ _ _ (tar_resume (checker_sink items) F (stk_source k) SV (src j) fuel c s v)) as [l0|e| |] eqn:Er.
    + injection H as <- <-. split; [exact A|]. apply (D l). congruence.
    + assert (Hq : e = EStop \/ (n, out) = (j, tar_resume (checker_sink items) F (stk_source k) SV (src j) fuel c s v)) by (destruct e; auto; right; congruence).
      destruct Hq as [->|Hq]; [|injection Hq as -> ->; congruence]. eapply IH; [exact A|exact B|exact H|exact Hl].
    + injection H as <- <-. congruence.
    + injection H as <- <-. congruence.
Qed.

Lemma sane_new : sane cs_new.
Proof. constructor; cbn; intros; try discriminate; [destruct h; discriminate|destruct i; cbn; unfold max_int64, two63; lia]. Qed.
