(** Reenter_proofs.v -- Resume from within Save. *)
From Verif Require Import Base Base_proofs Source Seek Decomp CodecSpec Contract Seek_proofs Decomp_proofs Drive SpoilSpec Spoil_proofs Stack_proofs
  Copier Sink Misc Reenter.

(** What a Read from a state [s2] at byte [o] gives. *)
Definition reads_well {S D tm} (L : laws S D tm) (s2 : s_st S) (o m2 n : nat) (st' : s_st S) (r : rres) : Prop :=
  exists d e, r = RRet d e /\ (length d <= n)%nat /\ d = slice D o (length d) /\
    (exists m', lw_at L st' (o + length d) m' /\ (m' <= m2)%nat) /\ (lw_clean L s2 -> lw_clean L st') /\
    (forall x, e = Some x -> x = tm /\ (o + length d)%nat = length D \/ ~ lw_clean L s2 /\ x <> EEof /\ x <> EReadyToSave).

Definition re_law (k : stk) {D tm} (L : laws (stk_source k) D tm) : Prop :=
  forall K (before : K -> sckpt (s_ck (stk_source k)) -> K * option cres) after st kk n o m st' kk' r,
  lw_late L = false -> lw_at L st o m -> (0 < n)%nat ->
  stk_read_re k (re_cb (stk_source k) before after) st kk n = (st', kk', r) ->
  (kk' = kk /\ reads_well L st o m n st' r /\
    (forall d, r = RRet d None -> exists m', lw_at L st' (o + length d) m' /\ (m' < m)%nat) /\ (lw_quiet L st -> lw_quiet L st')) \/
  (exists c kk1 b s1 m1, lw_ck L c /\ ck_off c = Z.of_nat o /\ ~ lw_quiet L st /\ lw_at L s1 o m1 /\ (lw_clean L st -> lw_clean L s1) /\
    before kk c = (kk1, b) /\
    match b with
    | Some COk => kk' = kk1 /\ reads_well L s1 o m1 n st' r
    | Some (CErr _) => kk' = kk1
    | Some CPanic => kk' = kk1 /\ r = RPanic
    | None => exists s2 rr cr, s_resume (stk_source k) s1 (Some c) = (s2, rr) /\ after kk1 rr = (kk', cr) /\
        match cr with
        | COk => forall m2, lw_at L s2 o m2 -> reads_well L s2 o m2 n st' r
        | CErr _ => True
        | CPanic => r = RPanic
        end
    end).

(** a Read without save *)
Lemma read_well {S D tm} (L : laws S D tm) st n o m st' r : lw_at L st o m -> (0 < n)%nat ->
  s_read S rec_cb st [] n = (st', [], r) -> reads_well L st o m n st' r /\
    (forall d, r = RRet d None -> exists m', lw_at L st' (o + length d) m' /\ (m' < m)%nat) /\ (lw_quiet L st -> lw_quiet L st').
Proof.
  intros Hat Hn Hr. destruct (lw_read _ _ _ L _ rec_cb st [] n o m st' [] r Hat Hn Hr) as (evs & Hcalls & _ & _ & Hres).
  destruct (rec_calls _ _ _ Hcalls) as [Hnil Hok].
  assert (evs = []) by (destruct evs; [reflexivity|discriminate]). subst evs.
  destruct r as [d e| |]; [|destruct Hres as (c & [])|destruct Hres].
  destruct Hres as (R1 & R2 & (m1 & R3 & R4 & R5) & Rq & R6 & _ & R8). split; [|split; [|exact Rq]].
  - exists d, e. splits; auto; [eauto|]. intros x ->. destruct R8 as [(H1 & H2 & _)|[(c & [])|H]]; [left; auto|right; exact H].
  - intros d0 H. injection H as <- ->. eauto.
Qed.

Section Seek.
  Context (data : bytes) (start size : Z) (pol : bool).
  Hypothesis Hstart : 0 <= start.
  Hypothesis Hsize : 0 <= size.
  Hypothesis Hfit : start + size < two63.
  Notation LL := (seek_laws data start size pol Hstart Hsize Hfit).

  Lemma seek_re : re_law KSeek LL.
  Proof.
    intros K before after st kk n o m st' kk' r _ Hat Hn Hr.
    change (seek_at data start size pol st o m) in Hat.
    change (seek_read_re (re_cb seek_source before after) st kk n = (st', kk', r)) in Hr.
    pose proof Hat as ((Hs1 & Hs2 & Hs3 & Hs4) & Hoff & Ho & Hm & b0 & Hb & Hbuf).
    destruct (ss_want st && ss_ssc st && negb (ss_size st - ss_off st =? 0)) eqn:Hsave.
    2:{ left.
      assert (E : seek_read_re (re_cb seek_source before after) st kk n = (fst (fst (seek_read rec_cb st [] n)), kk, snd (seek_read rec_cb st [] n)) /\
        snd (fst (seek_read rec_cb st [] n)) = []).
      { unfold seek_read_re, seek_read, seek_handle_save_re, seek_handle_save. rewrite Hb.
        destruct (n =? 0)%nat; [split; reflexivity|].
        destruct (ss_size st - ss_off st =? 0); [split; reflexivity|].
        rewrite andb_true_r in Hsave.
        destruct ((Z.of_nat n >? ss_size st - ss_off st) && (ss_size st - ss_off st <? 0)); [split; reflexivity|].
        destruct (ss_want st); cbn [andb] in Hsave; rewrite ?Hsave; cbn [ss_br ss_rs]; rewrite ?Hb;
          destruct (b_read _ _ _) as [[[b' rs'] d] e]; split; reflexivity. }
      destruct (seek_read rec_cb st [] n) as [[s1 l1] r1] eqn:E1. cbn [fst snd] in E. destruct E as [E ->].
      rewrite E in Hr. injection Hr as <- <- <-. split; [reflexivity|].
      exact (read_well LL st n o m s1 r1 Hat Hn E1). }
    apply andb_true_iff in Hsave. destruct Hsave as [Hsave Hrem]. apply andb_true_iff in Hsave. destruct Hsave as [Hw Hssc].
    right.
    set (s1 := MkSeek (ss_rs st) (ss_br st) (ss_ssc st) false (ss_start st) (ss_off st) (ss_size st)).
    set (c := MkCk (ss_off st) None : sckpt unit).
    destruct (before kk c) as [kk1 b] eqn:Hbef.
    exists c, kk1, b, s1, m.
    assert (Hat1 : seek_at data start size pol s1 o m) by exact Hat.
    assert (Hdl := seek_data_len data start size Hsize).
    assert (Hdl' : (o <= length (seek_data data start size))%nat) by exact Ho.
    splits; try exact Hoff; try exact Hat1; auto.
    { cbn. unfold seek_ck, zlen. cbn. lia. }
    { cbn. rewrite Hw. discriminate. }
    assert (Hn0 : (n =? 0)%nat = false) by (apply Nat.eqb_neq; lia).
    assert (Hrem' : (ss_size st - ss_off st =? 0) = false) by (destruct (ss_size st - ss_off st =? 0); [discriminate|reflexivity]).
    (* the common rest: a read from s2 *)
    assert (Hrest : forall s2 m2, seek_at data start size pol s2 o m2 -> ss_want s2 = false ->
      match ss_br s2 with
      | None => (s2, kk', RPanic)
      | Some b =>
          let '(b', rs', d, e) := b_read b (ss_rs s2) (if Z.of_nat n >? ss_size st - ss_off st then Z.to_nat (ss_size st - ss_off st) else n) in
          (MkSeek rs' (Some b') (ss_ssc s2) (ss_want s2) (ss_start s2) (ss_off s2 + zlen d) (ss_size s2), kk', RRet d e)
      end = (st', kk', r) -> reads_well LL s2 o m2 n st' r).
    { intros s2 m2 Hat2 Hw2 E. pose proof Hat2 as ((G1 & G2 & _) & G3 & _ & _ & b2 & G4 & _).
      apply (read_well LL s2 n o m2 st' r Hat2 Hn). change (seek_read rec_cb s2 [] n = (st', [], r)).
      unfold seek_read, seek_handle_save. rewrite G4, Hn0.
      assert (Hsz : ss_size s2 - ss_off s2 = ss_size st - ss_off st) by congruence.
      rewrite Hsz, Hrem'.
      destruct (Z.ltb_spec (ss_size st - ss_off st) 0) as [Hlt|Hge].
      { exfalso. unfold zlen in Hdl. lia. }
      rewrite andb_false_r, Hw2, G4. rewrite G4 in E.
      destruct (b_read b2 (ss_rs s2) _) as [[[b' rs'] d] e]. rewrite Hw2 in E. injection E as <- <-. rewrite ?Hw2. reflexivity. }
    assert (Hr' : forall s2 kk2 cr, re_cb seek_source before after c s1 kk = (s2, kk2, cr) ->
      match cr, ss_br s2 with
      | CPanic, _ => (s2, kk2, RPanic)
      | _, None => (s2, kk2, RPanic)
      | _, Some b =>
          let '(b', rs', d, e) := b_read b (ss_rs s2) (if Z.of_nat n >? ss_size st - ss_off st then Z.to_nat (ss_size st - ss_off st) else n) in
          (MkSeek rs' (Some b') (ss_ssc s2) (ss_want s2) (ss_start s2) (ss_off s2 + zlen d) (ss_size s2), kk2, RRet d e)
      end = (st', kk', r)).
    { intros s2 kk2 cr E. revert Hr. unfold seek_read_re, seek_handle_save_re. rewrite Hb, Hn0, Hrem', Hw.
      destruct (Z.ltb_spec (ss_size st - ss_off st) 0) as [Hlt|Hge].
      { exfalso. unfold zlen in Hdl. lia. }
      rewrite andb_false_r. rewrite <- Hb. fold s1. rewrite Hssc.
      match goal with |- context [re_cb seek_source before after ?X s1 kk] => change (re_cb seek_source before after X s1 kk) with (re_cb seek_source before after c s1 kk) end.
      rewrite E. destruct cr; auto. }
    assert (Hcb : re_cb seek_source before after c s1 kk = match b with
      | Some r0 => (s1, kk1, r0)
      | None => let '(st0, r0) := s_resume seek_source s1 (Some c) in let '(k2, cr) := after kk1 r0 in (st0, k2, cr)
      end) by (unfold re_cb; rewrite Hbef; reflexivity).
    destruct b as [[|e|]|].
    - specialize (Hr' _ _ _ Hcb).
      assert (kk' = kk1).
      { destruct (ss_br s1); [|congruence]. destruct (b_read _ _ _) as [[[? ?] ?] ?]. congruence. }
      subst kk1. split; [reflexivity|]. exact (Hrest s1 m Hat1 eq_refl Hr').
    - specialize (Hr' _ _ _ Hcb).
      destruct (ss_br s1); [|congruence]. destruct (b_read _ _ _) as [[[? ?] ?] ?]. congruence.
    - specialize (Hr' _ _ _ Hcb). split; congruence.
    - destruct (s_resume seek_source s1 (Some c)) as [s2 rr] eqn:Hres.
      destruct (after kk1 rr) as [kk2 cr] eqn:Haft. specialize (Hr' _ _ _ Hcb).
      exists s2, rr, cr.
      assert (kk' = kk2).
      { destruct cr; try congruence; (destruct (ss_br s2); [|congruence]); destruct (b_read _ _ _) as [[[? ?] ?] ?]; congruence. }
      subst kk2. splits; auto.
      assert (Hw2 : ss_want s2 = false).
      { revert Hres. change (s_resume seek_source s1 (Some c)) with (seek_resume s1 (Some c)). unfold seek_resume.
        destruct (ck_off c <? 0); [injection 1 as <- _; reflexivity|].
        destruct (rs_seek _ _) as [rs' [e|]]; injection 1 as <- _; reflexivity. }
      destruct cr; [|exact Logic.I|congruence]. intros m2 Hat2. exact (Hrest s2 m2 Hat2 Hw2 Hr').
  Qed.
End Seek.

Section Dcomp.
  Context (C : codec) (cfg : dcfg) (I : source) (fuel0 : nat).
  Notation src := (dcomp_source C cfg I fuel0).

  (** a lazy decompressor signals block boundaries alone *)
  Lemma sr_read_lazy : cd_eager_save C = false -> forall fuel i sck s n i1 sck1 s1 d,
    sr_read C I fuel0 fuel i sck s n = (i1, sck1, s1, RRet d (Some EReadyToSave)) -> d = [].
  Proof.
    intros Hlz. assert (Hpend : forall fuel i sck s n i1 sck1 s1 d b bs, sr_pend C s = b :: bs ->
      sr_read C I fuel0 fuel i sck s n = (i1, sck1, s1, RRet d (Some EReadyToSave)) -> False).
    { intros fuel i sck s n i1 sck1 s1 d b bs Hp. destruct fuel; cbn [sr_read]; rewrite Hp, Hlz;
        destruct (skipn n (b :: bs)); try discriminate; destruct (cd_step C (sr_d C s)); cbn [andb]; try discriminate; destruct (cd_eager C); discriminate. }
    induction fuel as [|f IH]; intros i sck s n i1 sck1 s1 d H; (destruct (sr_pend C s) as [|b bs] eqn:Hp; [|exfalso; exact (Hpend _ _ _ _ _ _ _ _ _ _ _ Hp H)]);
      cbn [sr_read] in H; rewrite Hp in H; (destruct (sr_fail C s); [congruence|]); [discriminate|].
    destruct (cd_step C (sr_d C s)); try congruence; eauto.
    - destruct (s_readbyte I _ i _) as [[i' [sck' [s'|]]] [b' [e|]| |]]; try discriminate; [congruence|eauto].
    - destruct (read_full I _ _ i _ _) as [[i' [sck' [s'|]]] [[b' [e|]]|e| |]]; try discriminate; [congruence|eauto].
    - destruct (sr_want C s); [congruence|eauto].
  Qed.

  Lemma dcomp_read_re_eq K (cb : reback src K) s k n :
    dcomp_read_re C cfg I fuel0 cb s k n =
    match dcomp_read C cfg I fuel0 rec_cb s [] n with
    | (s1, [], r) => (s1, k, r)
    | (s1, c :: _, RRet d _) =>
        let '(s2, k1, cr) := cb c s1 k in
        (s2, k1, match cr with COk => RRet d None | CErr e => RRet d (Some e) | CPanic => RPanic end)
    | (s1, _ :: _, r) => (s1, k, r)
    end.
  Proof.
    unfold dcomp_read_re, dcomp_read, rec_cb. cbn [app].
    destruct (ds_sr C I s) as [sr|]; [|reflexivity].
    destruct (sr_read C I fuel0 fuel0 _ _ sr n) as [[[i1 sck1] sr1] [d e| |]]; [|reflexivity|reflexivity].
    destruct e as [[]|]; try reflexivity.
    destruct sck1 as [c|]; [|reflexivity].
    destruct (ds_ssc C I s); cbn [negb]; [|reflexivity].
    destruct (cd_savable C (sr_d C sr1)); cbn [negb]; [|reflexivity].
    match goal with |- context [cb ?a ?b k] => destruct (cb a b k) as [[s2 k1] []] end; reflexivity.
  Qed.

  Lemma dcomp_emit_lazy s n s1 c l d e : cd_eager_save C = false ->
    dcomp_read C cfg I fuel0 rec_cb s [] n = (s1, c :: l, RRet d e) -> d = [].
  Proof.
    intros Hlz. unfold dcomp_read, rec_cb.
    destruct (ds_sr C I s) as [sr|]; [|discriminate].
    destruct (sr_read C I fuel0 fuel0 _ _ sr n) as [[[i1 sck1] sr1] [d1 e1| |]] eqn:Hs; [|discriminate|discriminate].
    destruct e1 as [[]|]; try discriminate.
    intros H. assert (d1 = []) by exact (sr_read_lazy Hlz _ _ _ _ _ _ _ _ _ Hs). subst d1.
    destruct sck1 as [c1|]; [|discriminate].
    destruct (ds_ssc C I s); cbn [negb] in H; [|discriminate].
    destruct (cd_savable C (sr_d C sr1)); cbn [negb] in H; [|discriminate]. congruence.
  Qed.
End Dcomp.

Section DcompLaw.
  Context (C : codec) (cfg : dcfg) (fuel0 : nat) (s : stk) {D : bytes} {tm : gerr}.
  Context (L : laws (stk_source (KDec C cfg fuel0 s)) D tm).
  Hypothesis Hlate : lw_late L = cd_eager_save C.

  Lemma dcomp_re : re_law (KDec C cfg fuel0 s) L.
  Proof.
    intros K before after st kk n o m st' kk' r Hl Hat Hn Hr.
    set (S := stk_source (KDec C cfg fuel0 s)) in *.
    pose proof (eq_trans (eq_sym (dcomp_read_re_eq C cfg (stk_source s) fuel0 K (re_cb S before after) st kk n)) Hr) as Hr'. clear Hr. rename Hr' into Hr.
    destruct (dcomp_read C cfg (stk_source s) fuel0 rec_cb st [] n) as [[s1 l] r1] eqn:E.
    change (s_read S rec_cb st [] n = (s1, l, r1)) in E.
    destruct l as [|c l].
    - injection Hr as <- <- <-. left. split; [reflexivity|]. exact (read_well L st n o m s1 r1 Hat Hn E).
    - right. destruct (lw_read _ _ _ L _ rec_cb st [] n o m s1 (c :: l) r1 Hat Hn E) as (evs & Hcalls & _ & Hgen & Hres).
      destruct (rec_calls _ _ _ Hcalls) as [Hev Hok]. cbn [app] in Hev.
      destruct evs as [|[c0 rr0] evs]; [discriminate|]. injection Hev as <- ->.
      destruct (Hgen c rr0 (or_introl eq_refl)) as [G1 G2].
      destruct r1 as [d e| |]; [|destruct Hres as (c1 & Hi); specialize (Hok _ _ Hi); discriminate|destruct Hres].
      assert (d = []) by exact (dcomp_emit_lazy C cfg (stk_source s) fuel0 st n s1 c _ d e (eq_trans (eq_sym Hlate) Hl) E). subst d.
      destruct Hres as (R1 & R2 & (m1 & R3 & R4 & R5) & _ & R6 & R7 & R8).
      cbn [length] in R3. rewrite Nat.add_0_r in R3.
      destruct (R7 c rr0 (or_introl eq_refl)) as (_ & Hoff).
      assert (Hoff' : ck_off c = Z.of_nat o).
      { destruct Hoff as [H|[H _]]; [exact H|congruence]. }
      destruct (before kk c) as [kk1 b] eqn:Hbef.
      exists c, kk1, b, s1, m1. splits; auto.
      assert (Hw : forall s2 m2, lw_at L s2 o m2 -> reads_well L s2 o m2 n s2 (RRet [] None)).
      { intros s2 m2 H2. exists [], None. cbn [length]. rewrite slice_0, Nat.add_0_r. split; [reflexivity|]. split; [lia|]. split; [reflexivity|]. split; [eauto|]. split; [auto|discriminate]. }
      unfold re_cb in Hr. rewrite Hbef in Hr.
      destruct b as [[|e0|]|].
      + injection Hr as <- <- <-. split; auto.
      + injection Hr as <- <- <-. reflexivity.
      + injection Hr as <- <- <-. auto.
      + destruct (s_resume S s1 (Some c)) as [s2 rr] eqn:Hres. destruct (after kk1 rr) as [kk2 cr] eqn:Haft.
        set (G := fun p : s_st S * res Z => let '(s2, k1, cr) := (let '(st0, r0) := p in let '(k2, cr) := after kk1 r0 in (st0, k2, cr)) in
          (s2, k1, match cr with COk => RRet [] None | CErr e => RRet [] (Some e) | CPanic => RPanic end)).
        pose proof (eq_trans (eq_sym (f_equal G Hres)) Hr) as Hr'. unfold G in Hr'. rewrite Haft in Hr'.
        injection Hr' as <- <- <-. exists s2, rr, cr. splits; auto. destruct cr; auto.
  Qed.
End DcompLaw.

Lemma stk_laws_re pol data start size k D tm b byt p late : stk_den pol data start size k D tm b byt p late ->
  exists L : laws (stk_source k) D tm, stk_facts pol data start size k D tm b byt p late L /\ re_law k L.
Proof.
  intros H. destruct (stk_laws pol data start size k D tm b byt p late H) as (L0 & F0).
  destruct H as [H1 H2 H3|C cfg fuel s ID itm b pi li N D tm byt Hs Hrun Htm HN Hb Hsav Hpull Hse Hbyt].
  - clear L0 F0. exists (seek_laws data start size pol H1 H2 H3). split; [|apply seek_re]. split; try reflexivity.
    + intros _. apply seek_byte_law.
    + intros rs Hd Hp. cbn. split; [reflexivity|]. split; [reflexivity|]. split; [exact Hd|]. exact Hp.
    + intros rs Hd [Hg1 Hg2]. split; [|cbn; discriminate]. split; [|exact Hg1].
      cbn. intros [|] Hi; [tauto|reflexivity].
    + intros c c' Hc Hs. split; [exact (seek_spoil pol data start size H1 H2 H3 c c' Hc Hs)|intros []].
  - exists L0. split; [exact F0|]. apply dcomp_re. exact (sf_late _ _ _ _ _ _ _ _ _ _ _ _ F0).
Qed.
