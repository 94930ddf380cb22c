(** Stop_proofs.v -- savior.ErrStop: no source reports it on its own. *)
From Verif Require Import Base Base_proofs Source Seek Decomp Drive Copier.

(** The consumer's Save does not return savior.ErrStop as an error. *)
Definition cb_quiet {CK K} (cb : callback CK K) : Prop := forall c k, snd (cb c k) <> CErr EStop.

(** A condition on states that is kept by all operations and under which no
    operation reports savior.ErrStop. *)
Record quiet (S : source) (P : s_st S -> Prop) : Prop := {
  q_resume : forall st c, P st -> P (fst (s_resume S st c)) /\ snd (s_resume S st c) <> Err EStop;
  q_setssc : forall st, P st -> P (s_setssc S st);
  q_want : forall st, P st -> P (s_want S st);
  q_read : forall K (cb : callback (s_ck S) K) st k n, P st -> cb_quiet cb ->
    P (fst (fst (s_read S cb st k n))) /\ (forall d, snd (s_read S cb st k n) <> RRet d (Some EStop));
  q_readbyte : forall K (cb : callback (s_ck S) K) st k, P st -> cb_quiet cb ->
    P (fst (fst (s_readbyte S cb st k))) /\ forall b, snd (s_readbyte S cb st k) <> BRet b (Some EStop) }.

(** A Read calls Save at most once, and reports the error of Save if [faithful]. *)
Definition saves_once (S : source) (faithful : bool) : Prop :=
  forall K (cb : callback (s_ck S) K) st k n st' k' r, s_read S cb st k n = (st', k', r) ->
  k' = k \/ exists c, k' = fst (cb c k) /\
    match snd (cb c k) with
    | CPanic => r = RPanic
    | CErr e => exists d, if faithful then r = RRet d (Some e) else exists e', r = RRet d e'
    | COk => exists d e', r = RRet d e'
    end.
Lemma once_inv S f : saves_once S f -> forall K (cb : callback (s_ck S) K) (R : K -> Prop) st k n,
  (forall c k, R k -> R (fst (cb c k))) -> R k -> R (snd (fst (s_read S cb st k n))).
Proof.
  intros H K cb R st k n HR Hk. destruct (s_read S cb st k n) as [[st' k'] r] eqn:E.
  destruct (H K cb st k n st' k' r E) as [->|(c & -> & _)]; cbn; auto.
Qed.

(** ** seeksource *)
Lemma seek_saves_once : saves_once seek_source false.
Proof.
  intros K cb st k n st' k' r. cbn [seek_source s_st s_ck s_read]. unfold seek_read.
  destruct (ss_br st) as [b|] eqn:Hb; [|intros [= <- <- <-]; auto].
  destruct (n =? 0)%nat; [intros [= <- <- <-]; auto|]. destruct (_ =? 0); [intros [= <- <- <-]; auto|].
  destruct (_ && _); [intros [= <- <- <-]; auto|].
  unfold seek_handle_save. destruct (ss_want st).
  - destruct (ss_ssc st).
    + match goal with |- context[cb ?c k] => intros H; right; exists c; revert H; destruct (cb c k) as [k1 cr] end. cbn [ss_br ss_rs fst snd].
      rewrite Hb. destruct (b_read _ _ _) as [[[b' r'] d] e]. destruct cr; intros [= <- <- <-]; eauto.
    + cbn [ss_br ss_rs]. rewrite Hb. destruct (b_read _ _ _) as [[[b' r'] d] e]. intros [= <- <- <-]. auto.
  - rewrite Hb. destruct (b_read _ _ _) as [[[b' r'] d] e]. intros [= <- <- <-]. auto.
Qed.
Definition seek_quiet (s : sstate) : Prop := match ss_br s with Some b => b_err b <> Some EStop | None => True end.

Lemma rs_read_quiet r n : snd (rs_read r n) <> Some EStop.
Proof.
  unfold rs_read. destruct (rs_orc r) as [|[k e|] t]; cbn; try discriminate;
  destruct (skipn _ _) eqn:?; cbn; try discriminate.
  match goal with |- context[if ?b then _ else _] => destruct b end; discriminate.
Qed.
Lemma b_read_quiet b r n : b_err b <> Some EStop ->
  let '(b', r', d, e) := b_read b r n in b_err b' <> Some EStop /\ e <> Some EStop.
Proof.
  intros H. unfold b_read. destruct (n =? 0)%nat; [destruct (b_buf b); cbn; split; auto; discriminate|].
  destruct (b_buf b) as [|x l]; [|cbn; split; auto; discriminate].
  destruct (b_err b) as [e|]; [cbn; split; auto; discriminate|].
  destruct (bufsize <=? n)%nat.
  - pose proof (rs_read_quiet r n) as HH. destruct (rs_read r n) as [[r' d] e]. cbn in *. split; auto; discriminate.
  - pose proof (rs_read_quiet r bufsize) as HH. destruct (rs_read r bufsize) as [[r' d] e]. cbn in HH.
    destruct d; cbn; split; auto; discriminate.
Qed.
Lemma b_readbyte_quiet b r : b_err b <> Some EStop ->
  let '(b', r', c) := b_readbyte b r in b_err b' <> Some EStop /\ c <> inr EStop.
Proof.
  intros H. unfold b_readbyte. destruct (b_buf b) as [|x l]; [|cbn; split; auto; discriminate].
  destruct (b_err b) as [e|]; [cbn; split; congruence|].
  pose proof (rs_read_quiet r bufsize) as HH. destruct (rs_read r bufsize) as [[r' d] e]. cbn in HH.
  destruct d; cbn; split; auto; try discriminate. destruct e; congruence.
Qed.
Lemma seek_save_quiet {K} (cb : callback unit K) s k : seek_quiet s ->
  ss_br (fst (fst (seek_handle_save cb s k))) = ss_br s /\ seek_quiet (fst (fst (seek_handle_save cb s k))).
Proof.
  intros H. unfold seek_handle_save. destruct (ss_want s); [|auto]. destruct (ss_ssc s); [|cbn; auto].
  destruct (cb _ k). cbn. auto.
Qed.
Lemma seek_is_quiet : quiet seek_source seek_quiet.
Proof.
  constructor; cbn [seek_source s_st s_ck s_resume s_setssc s_want s_read s_readbyte].
  - intros st c H. unfold seek_resume.
    assert (HS : forall o, snd (rs_seek (ss_rs st) o) <> Some EStop).
    { intros o. unfold rs_seek. destruct (match rs_sorc _ with [] => _ | _ :: _ => _ end); [discriminate|].
      destruct (o <? 0); discriminate. }
    destruct c as [c|]; [destruct (ck_off c <? 0); [cbn; split; [auto|discriminate]|]|];
      match goal with |- context[rs_seek _ ?o] => specialize (HS o); destruct (rs_seek (ss_rs st) o) as [rs' [e|]] end;
      cbn in *; split; auto; try discriminate; congruence.
  - auto.
  - auto.
  - intros K cb st k n H _. unfold seek_read. destruct (ss_br st) as [b|] eqn:Hb; [|cbn; split; [exact H|discriminate]].
    destruct (n =? 0)%nat; [cbn; split; [exact H|discriminate]|].
    destruct (_ =? 0); [cbn; split; [exact H|discriminate]|].
    destruct (_ && _); [cbn; split; [exact H|discriminate]|].
    destruct (seek_save_quiet cb st k H) as [H1 H2]. destruct (seek_handle_save cb st k) as [[s1 k1] r]. cbn in H1, H2.
    rewrite H1, Hb. assert (Hq : b_err b <> Some EStop) by (unfold seek_quiet in H; rewrite Hb in H; exact H).
    pose proof (b_read_quiet b (ss_rs s1) (if Z.of_nat n >? ss_size st - ss_off st then Z.to_nat (ss_size st - ss_off st) else n) Hq) as HR.
    destruct (b_read _ _ _) as [[[b' r'] d] e]. destruct HR as [HR1 HR2].
    destruct r; cbn; (split; [auto|]); try discriminate; intros ? [= _ E]; congruence.
  - intros K cb st k H _. unfold seek_readbyte. destruct (ss_br st) as [b|] eqn:Hb; [|cbn; split; [exact H|discriminate]].
    destruct (_ =? _); [cbn; split; [exact H|discriminate]|].
    destruct (seek_save_quiet cb st k H) as [H1 H2]. destruct (seek_handle_save cb st k) as [[s1 k1] r]. cbn in H1, H2.
    rewrite H1, Hb. assert (Hq : b_err b <> Some EStop) by (unfold seek_quiet in H; rewrite Hb in H; exact H).
    pose proof (b_readbyte_quiet b (ss_rs s1) Hq) as HR.
    destruct (b_readbyte _ _) as [[b' r'] [c|e]]; destruct HR as [HR1 HR2];
    destruct r; cbn; (split; [auto|]); try discriminate; intros ? [= _ E]; congruence.
Qed.

(** ** the decompressing sources *)
Lemma discard_quiet S P (Q : quiet S P) {K} (cb : callback (s_ck S) K) : cb_quiet cb -> forall fuel st k n, P st ->
  P (fst (fst (discard_by_read S cb fuel st k n))) /\ snd (discard_by_read S cb fuel st k n) <> Err EStop.
Proof.
  intros Hcb. induction fuel as [|f IH]; intros st k n H; cbn [discard_by_read]; destruct (n <=? 0); try (cbn; split; auto; discriminate).
  destruct (q_read S P Q K cb st k (Z.to_nat (Z.min n discard_buf)) H Hcb) as [H1 H2].
  destruct (s_read S cb st k _) as [[st' k'] [d [e|]| |]]; cbn in H1, H2; try (cbn; split; auto; discriminate).
  - cbn. split; [auto|]. intros [= E]. destruct e; cbn in E; try discriminate. exact (H2 d eq_refl).
  - apply IH. exact H1.
Qed.

Lemma full_quiet S P (Q : quiet S P) {K} (cb : callback (s_ck S) K) : cb_quiet cb -> forall fuel src u n src' u' r, P src ->
  read_full S cb fuel src u n = (src', u', r) -> P src' /\ r <> Err EStop /\ forall d, r <> Ok (d, Some EStop).
Proof.
  intros Hcb. induction fuel as [|f IH]; intros src u n src' u' r Hp; (destruct n as [|n]; cbn [read_full]; [intros [= <- <- <-]; splits; auto; discriminate|]).
  - intros [= <- <- <-]. splits; auto; discriminate.
  - destruct (q_read _ _ Q _ cb src u (Datatypes.S n) Hp Hcb) as [H1 H2]. destruct (s_read S cb src u _) as [[src1 u1] [d e| |]]; cbn [fst snd] in H1, H2;
      try (intros [= <- <- <-]; splits; auto; discriminate).
    destruct (_ <=? _)%nat; [intros [= <- <- <-]; splits; auto; discriminate|].
    destruct e as [e|].
    + intros [= <- <- <-]. splits; auto; [discriminate|]. intros d0 [= -> ->]. exact (H2 d0 eq_refl).
    + destruct (read_full S cb f src1 u1 _) as [[src2 u2] [[d2 e2]|e2| |]] eqn:Er; destruct (IH _ _ _ _ _ _ H1 Er) as (A & B & D); intros [= <- <- <-];
        splits; auto; try discriminate. intros d0 [= _ ->]. exact (D d2 eq_refl).
Qed.

Section Dec.
  Context (C : codec) (cfg : dcfg) (I : source) (fuel0 : nat) (P : s_st I -> Prop) (Q : quiet I P) (fth : bool) (HO : saves_once I fth).
  Let D := dcomp_source C cfg I fuel0.
  Definition sr_quiet (o : option (srd C)) : Prop := match o with Some s => sr_fail C s <> Some EStop | None => True end.
  Definition dec_quiet (s : dstate C I) : Prop := P (ds_in C I s) /\ sr_quiet (ds_sr C I s).

  Lemma onsave_quiet : cb_quiet (dcomp_onsave C I).
  Proof. intros c [o [s|]]; cbn; discriminate. Qed.
  (** a callback only reached through the inner source keeps the reader quiet *)
  Lemma sr_read_quiet : forall fuel i sck s n, P i -> sr_fail C s <> Some EStop ->
    let '(i', sck', s', r) := Decomp.sr_read C I fuel0 fuel i sck s n in
    P i' /\ sr_fail C s' <> Some EStop /\ forall d, r <> RRet d (Some EStop).
  Proof.
    induction fuel as [|f IH]; intros i sck s n Hi Hs.
    - cbn [Decomp.sr_read]. destruct (sr_pend C s) as [|x l] eqn:Hp.
      + destruct (sr_fail C s) eqn:Hf; [|split; auto; split; [congruence|discriminate]]. splits; auto; congruence.
      + destruct (skipn n (x :: l)); [|splits; auto; discriminate].
        destruct (cd_step C (sr_d C s)); try destruct (cd_eager C); try destruct (cd_eager_save C && sr_want C s); splits; auto; discriminate.
    - cbn [Decomp.sr_read]. destruct (sr_pend C s) as [|x l] eqn:Hp.
      + destruct (sr_fail C s) eqn:Hf; [splits; auto; congruence|].
        destruct (cd_step C (sr_d C s)).
        * destruct (q_readbyte I P Q _ (dcomp_onsave C I) i (sck, Some s) Hi onsave_quiet) as [H1 H2].
          destruct (s_readbyte I (dcomp_onsave C I) i (sck, Some s)) as [[i' [sck' [s'|]]] [b [e|]| |]]; cbn in H1, H2; try (splits; auto; try congruence; discriminate).
          -- assert (He : e <> EStop) by (intros ->; exact (H2 b eq_refl)). splits; auto; [cbn; destruct e; congruence|].
             intros d [= _ E]. destruct e; congruence.
          -- apply IH; [exact H1|cbn; discriminate].
        * destruct (read_full I (dcomp_onsave C I) fuel0 i (sck, Some s) _) as [[i' k'] r'] eqn:Er.
          destruct (full_quiet I P Q _ onsave_quiet _ _ _ _ _ _ _ Hi Er) as (H1 & _ & H2).
          destruct k' as [sck' [s'|]]; destruct r' as [[b [e|]]|e| |]; try (splits; auto; try congruence; discriminate).
          -- assert (He : e <> EStop) by (intros ->; exact (H2 b eq_refl)). splits; auto; [cbn; destruct e; congruence|].
             intros d [= _ E]. destruct e; congruence.
          -- apply IH; [exact H1|cbn; discriminate].
        * apply IH; [exact Hi|cbn; discriminate].
        * destruct (sr_want C s); [splits; auto; discriminate|]. apply IH; [exact Hi|cbn; discriminate].
        * splits; auto; try congruence; discriminate.
        * splits; auto; try congruence; discriminate.
      + destruct (skipn n (x :: l)); [|splits; auto; discriminate].
        destruct (cd_step C (sr_d C s)); try destruct (cd_eager C); try destruct (cd_eager_save C && sr_want C s); splits; auto; discriminate.
  Qed.
  Lemma sr_header_quiet : forall fuel i sck osr d roff, P i ->
    let '(i', sck', r) := sr_header C I fuel0 fuel i sck osr d roff in
    P i' /\ r <> Err EStop /\ forall s, r = Ok s -> sr_fail C s <> Some EStop.
  Proof.
    induction fuel as [|f IH]; intros i sck osr d roff Hi; cbn [sr_header]; destruct (cd_step C d);
      try (splits; auto; try discriminate; intros ? [= <-]; discriminate).
    - destruct (q_readbyte I P Q _ (dcomp_onsave C I) i (sck, osr) Hi onsave_quiet) as [H1 H2].
      destruct (s_readbyte I (dcomp_onsave C I) i (sck, osr)) as [[i' [sck' osr']] [b' [e|]| |]]; cbn in H1, H2;
      try (splits; auto; discriminate).
      + assert (He : e <> EStop) by (intros ->; exact (H2 b' eq_refl)). splits; auto; [|discriminate].
        intros [= E]. destruct e; try discriminate; try congruence. destruct (roff =? 0); discriminate.
      + apply IH. exact H1.
    - destruct (read_full I (dcomp_onsave C I) fuel0 i (sck, osr) _) as [[i' k'] r'] eqn:Er.
      destruct (full_quiet I P Q _ onsave_quiet _ _ _ _ _ _ _ Hi Er) as (H1 & _ & H2).
      destruct k' as [sck' osr']; destruct r' as [[b' [e|]]|e| |]; try (splits; auto; discriminate).
      + assert (He : e <> EStop) by (intros ->; exact (H2 b' eq_refl)). splits; auto; [|discriminate].
        intros [= E]. destruct e; try discriminate; try congruence. destruct (_ =? 0); discriminate.
      + apply IH. exact H1.
  Qed.
  (** what OnSave leaves of the reader *)
  Lemma fresh_quiet s : dec_quiet s -> dec_quiet (fst (dcomp_fresh C cfg I fuel0 s)) /\ snd (dcomp_fresh C cfg I fuel0 s) <> Err EStop.
  Proof.
    intros [H1 H2]. unfold dcomp_fresh. destruct (q_resume I P Q (ds_in C I s) None H1) as [H3 H4].
    destruct (s_resume I (ds_in C I s) None) as [i1 [z|e| |]]; cbn in H3, H4; try (cbn; split; [split; auto|]; try discriminate; congruence).
    destruct (negb _); [cbn; split; [split; auto|discriminate]|].
    destruct (cf_hdr cfg); [|cbn; split; [split; cbn; auto; discriminate|discriminate]].
    pose proof (sr_header_quiet fuel0 i1 (ds_sck C I s) (ds_sr C I s) (cd_init C) 0 H3) as HH.
    destruct (sr_header _ _ _ _ _ _ _ _ _) as [[i2 sck2] [sr|e| |]]; destruct HH as (HH1 & HH2 & HH3); cbn;
      (split; [split; cbn; auto|]); try discriminate; try congruence.
  Qed.
  (** OnSave never touches the sticky error *)
  Lemma onsave_sr c k : sr_quiet (snd k) -> sr_quiet (snd (fst (dcomp_onsave C I c k))).
  Proof. destruct k as [o [s|]]; cbn; auto. Qed.
  Lemma discard_sr fuel : forall i k n, sr_quiet (snd k) ->
    sr_quiet (snd (snd (fst (discard_by_read I (dcomp_onsave C I) fuel i k n)))).
  Proof.
    induction fuel as [|f IH]; intros i k n H; cbn [discard_by_read]; destruct (n <=? 0); auto.
    pose proof (once_inv I fth HO _ (dcomp_onsave C I) (fun k => sr_quiet (snd k)) i k (Z.to_nat (Z.min n discard_buf)) onsave_sr H) as HH.
    destruct (s_read I _ i k _) as [[i' k'] [d [e|]| |]]; cbn in HH; auto.
  Qed.

  Lemma dec_saves_once : saves_once D true.
  Proof using Type.
    intros K cb s k n st' k' r. unfold D. cbn [dcomp_source s_st s_ck s_read]. unfold dcomp_read.
    destruct (ds_sr C I s) as [sr|] eqn:Hsr; [|intros [= <- <- <-]; auto].
    destruct (Decomp.sr_read _ _ _ _ _ _ _ _) as [[[i1 sck1] sr1] rr].
    destruct rr as [d e| |]; try (intros [= <- <- <-]; auto; fail). destruct e as [e|]; [|intros [= <- <- <-]; auto].
    destruct e; try (intros [= <- <- <-]; auto; fail).
    destruct sck1; [|intros [= <- <- <-]; auto]. destruct (negb _); [intros [= <- <- <-]; auto|]. destruct (negb _); [intros [= <- <- <-]; auto|].
    match goal with |- context[cb ?c k] => intros H; right; exists c; revert H; destruct (cb c k) as [k1 [|e|]] end; intros [= <- <- <-]; cbn; eauto.
  Qed.

  Lemma dec_is_quiet : quiet D dec_quiet.
  Proof.
    constructor; unfold D; cbn [dcomp_source s_st s_ck s_resume s_setssc s_want s_read s_readbyte].
    - intros s c H. unfold dcomp_resume. destruct c as [[o [dk|]]|]; try (apply fresh_quiet; exact H).
      destruct H as [H1 H2]. destruct (q_resume I P Q (ds_in C I s) (dk_src C I dk) H1) as [H3 H4].
      destruct (s_resume I (ds_in C I s) (dk_src C I dk)) as [i1 [z|e| |]]; cbn in H3, H4; try (cbn; split; [split; auto|]; try discriminate; congruence).
      destruct (discard_quiet I P Q (dcomp_onsave C I) onsave_quiet fuel0 i1 (ds_sck C I s, ds_sr C I s) (dk_roff C I dk - z) H3) as [H5 H6].
      pose proof (discard_sr fuel0 i1 (ds_sck C I s, ds_sr C I s) (dk_roff C I dk - z) H2) as H7.
      destruct (discard_by_read _ _ _ _ _ _) as [[i2 [sck2 sr2]] [[]|e| |]]; cbn in H5, H6, H7; try (cbn; split; [split; auto|]; try discriminate; congruence).
      destruct (z <=? _); [|apply fresh_quiet; split; auto].
      destruct (dk_snap C I dk); [cbn; split; [split; cbn; auto; discriminate|discriminate]|].
      destruct (q_resume I P Q i2 None H5) as [H8 H9].
      destruct (s_resume I i2 None) as [i3 [z3|e| |]]; cbn in H8, H9; try (cbn; split; [split; cbn; auto|]; try discriminate; congruence).
      apply fresh_quiet. split; cbn; auto.
    - intros s [H1 H2]. split; cbn; auto. apply (q_setssc I P Q). exact H1.
    - intros s [H1 H2]. split; cbn; auto. apply (q_want I P Q). exact H1.
    - intros K cb s k n [H1 H2] Hcb. unfold dcomp_read. destruct (ds_sr C I s) as [sr|] eqn:Hsr; [|cbn; split; [split; [auto|rewrite Hsr; auto]|discriminate]].
      cbn in H2. pose proof (sr_read_quiet fuel0 (ds_in C I s) (ds_sck C I s) sr n H1 H2) as HR.
      destruct (Decomp.sr_read _ _ _ _ _ _ _ _) as [[[i1 sck1] sr1] r]. destruct HR as (HR1 & HR2 & HR3).
      destruct r as [d e| |]; try (cbn; split; [split; cbn; auto|discriminate]).
      assert (He : e <> Some EStop) by (intros ->; exact (HR3 d eq_refl)).
      destruct e as [e|]; [|cbn; split; [split; cbn; auto|discriminate]].
      destruct e; try (exfalso; congruence); try (cbn; split; [split; cbn; auto|]; discriminate).
      destruct sck1; [|cbn; split; [split; cbn; auto|discriminate]].
      destruct (negb (ds_ssc C I s)); [cbn; split; [split; cbn; auto|discriminate]|].
      destruct (negb (cd_savable _ _)); [cbn; split; [split; cbn; auto|discriminate]|].
      match goal with |- context[cb ?c k] => pose proof (Hcb c k) as HC; destruct (cb c k) as [k1 [|e|]] end;
        cbn in *; (split; [split; cbn; auto|]); try discriminate. intros ? [= _ E]. congruence.
    - intros K cb s k H Hcb. unfold dcomp_readbyte. destruct (ds_sr C I s) as [sr|] eqn:Hsr; [|cbn; split; [exact H|discriminate]].
      assert (HB : forall d s', dec_quiet s' -> dec_quiet (dcomp_setbuf C I d s')) by (intros [|b d] s' [A B]; split; auto).
      assert (HRD : forall s k, dec_quiet s -> dec_quiet (fst (fst (dcomp_read C cfg I fuel0 cb s k 1))) /\
        forall d, snd (dcomp_read C cfg I fuel0 cb s k 1) <> RRet d (Some EStop)).
      { clear s k H Hsr. intros s k [H1 H2]. unfold dcomp_read. destruct (ds_sr C I s) as [sr'|] eqn:Hsr; [|cbn; split; [split; [auto|rewrite Hsr; auto]|discriminate]].
        cbn in H2. pose proof (sr_read_quiet fuel0 (ds_in C I s) (ds_sck C I s) sr' 1 H1 H2) as HR.
        destruct (Decomp.sr_read _ _ _ _ _ _ _ _) as [[[i1 sck1] sr1] r]. destruct HR as (HR1 & HR2 & HR3).
        destruct r as [d e| |]; try (cbn; split; [split; cbn; auto|discriminate]).
        assert (He : e <> Some EStop) by (intros ->; exact (HR3 d eq_refl)).
        destruct e as [e|]; [|cbn; split; [split; cbn; auto|discriminate]].
        destruct e; try (exfalso; congruence); try (cbn; split; [split; cbn; auto|]; discriminate).
        destruct sck1; [|cbn; split; [split; cbn; auto|discriminate]].
        destruct (negb (ds_ssc C I s)); [cbn; split; [split; cbn; auto|discriminate]|].
        destruct (negb (cd_savable _ _)); [cbn; split; [split; cbn; auto|discriminate]|].
        match goal with |- context[cb ?c k] => pose proof (Hcb c k) as HC; destruct (cb c k) as [k1 [|e|]] end;
          cbn in *; (split; [split; cbn; auto|]); try discriminate. intros ? [= _ E]. congruence. }
      destruct (HRD s k H) as [A1 A2].
      destruct (dcomp_read C cfg I fuel0 cb s k 1) as [[s1 k1] [[|b d] e| |]]; cbn in A1, A2; try (cbn; split; [auto|discriminate]).
      + destruct (HRD s1 k1 A1) as [B1 B2].
        destruct (dcomp_read C cfg I fuel0 cb s1 k1 1) as [[s2 k2] [d2 e2| |]]; cbn in B1, B2; try (cbn; split; [auto|discriminate]).
        cbn. split; [apply HB; exact B1|]. intros b0 [= _ E]. subst e2. exact (B2 d2 eq_refl).
      + cbn. split; [apply (HB (b :: d)); exact A1|]. intros b0 [= _ E]. subst e. exact (A2 _ eq_refl).
  Qed.
End Dec.

(** ** every stack *)
Fixpoint stk_quiet (k : stk) : s_st (stk_source k) -> Prop :=
  match k with
  | KSeek => seek_quiet
  | KDec C cfg fuel s => dec_quiet C (stk_source s) (stk_quiet s)
  end.
(** compressed: the topmost source decompresses *)
Definition stk_compressed (k : stk) : bool := match k with KSeek => false | KDec _ _ _ _ => true end.
Lemma stk_saves_once k : saves_once (stk_source k) (stk_compressed k).
Proof. destruct k; [exact seek_saves_once|apply dec_saves_once]. Qed.
Lemma stk_is_quiet k : quiet (stk_source k) (stk_quiet k).
Proof. induction k; [exact seek_is_quiet|eapply dec_is_quiet; [exact IHk|apply stk_saves_once]]. Qed.
Lemma stk_new_quiet k rs start size : stk_quiet k (stk_new k rs start size).
Proof. induction k; [exact Logic.I|split; [exact IHk|exact Logic.I]]. Qed.
