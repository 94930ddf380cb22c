(** Saves_proofs.v -- a source makes no more checkpoints than it was asked for. *)
From Verif Require Import Base Base_proofs Source Seek Decomp CodecSpec Contract Drive Stack_proofs Copier Sink Misc Reenter Reenter_proofs.

Definition not_ready (e : option gerr) : Prop := e <> Some EReadyToSave.

(** [bl st]: how many checkpoints may still come without a further WantSave. *)
Record budget (S : source) := MkBudget {
  bl : s_st S -> nat;
  bl_ok : s_st S -> Prop;
  bl_want : forall st, bl_ok st -> bl_ok (s_want S st) /\ (bl (s_want S st) <= Datatypes.S (bl st))%nat;
  bl_setssc : forall st, bl_ok st -> bl_ok (s_setssc S st) /\ (bl (s_setssc S st) <= bl st)%nat;
  bl_resume : forall st c st' r, bl_ok st -> s_resume S st c = (st', r) -> r <> Panic -> r <> Hang -> bl_ok st' /\ (bl st' <= bl st)%nat;
  bl_read : forall K (cb : callback (s_ck S) K) st k n st' k' d e, bl_ok st -> s_read S cb st k n = (st', k', RRet d e) ->
    exists evs, calls cb k evs k' /\ (length evs + bl st' <= bl st)%nat /\ bl_ok st' /\ (e = Some EReadyToSave -> exists c, In (c, CErr EReadyToSave) evs);
  bl_readbyte : forall K (cb : callback (s_ck S) K) st k st' k' d e, bl_ok st -> s_readbyte S cb st k = (st', k', BRet d e) ->
    exists evs, calls cb k evs k' /\ (length evs + bl st' <= bl st)%nat /\ bl_ok st' /\ (e = Some EReadyToSave -> exists c, In (c, CErr EReadyToSave) evs) }.
Arguments bl {S} b _.
Arguments bl_ok {S} b _.
Arguments bl_want {S} b _ _.
Arguments bl_setssc {S} b _ _.
Arguments bl_resume {S} b _ _ _ _ _ _ _ _.
Arguments bl_read {S} b _ _ _ _ _ _ _ _ _ _ _.
Arguments bl_readbyte {S} b _ _ _ _ _ _ _ _ _ _.
(** ** seek sources *)
Definition seek_left (s : sstate) : nat := if ss_want s then 1 else 0.
Definition seek_calm (s : sstate) : Prop := match ss_br s with Some b => not_ready (b_err b) | None => True end.

Lemma rs_read_calm r n : not_ready (snd (rs_read r n)).
Proof.
  unfold rs_read, not_ready. destruct (rs_orc r) as [|[c e|] l]; destruct (skipn (Z.to_nat (rs_pos r)) (rs_data r)); cbn [snd andb]; try discriminate.
  match goal with |- context [if ?b then _ else _] => destruct b end; discriminate.
Qed.
Lemma b_read_calm b r n b' r' d e : not_ready (b_err b) -> b_read b r n = (b', r', d, e) -> not_ready (b_err b') /\ not_ready e.
Proof.
  unfold b_read. intros Hb. assert (not_ready None) by discriminate.
  destruct (n =? 0)%nat.
  - destruct (b_buf b); injection 1 as <- <- <- <-; auto.
  - destruct (b_buf b); [|injection 1 as <- <- <- <-; auto].
    destruct (b_err b) as [x|]; [injection 1 as <- <- <- <-; auto|].
    destruct (bufsize <=? n)%nat.
    + pose proof (rs_read_calm r n) as Hc. destruct (rs_read r n) as [[r1 d1] e1]. injection 1 as <- <- <- <-; auto.
    + pose proof (rs_read_calm r bufsize) as Hc. destruct (rs_read r bufsize) as [[r1 d1] e1]. destruct d1; injection 1 as <- <- <- <-; auto.
Qed.
Lemma b_readbyte_calm b r b' r' x : not_ready (b_err b) -> b_readbyte b r = (b', r', x) -> not_ready (b_err b') /\ x <> inr EReadyToSave.
Proof.
  unfold b_readbyte. intros Hb. assert (not_ready None) by discriminate.
  destruct (b_buf b); [|injection 1 as <- <- <-; split; [auto|discriminate]].
  destruct (b_err b) as [y|]; [injection 1 as <- <- <-; split; [auto|intros [= ->]; apply Hb; reflexivity]|].
  pose proof (rs_read_calm r bufsize) as Hc. destruct (rs_read r bufsize) as [[r1 d1] e1].
  destruct d1; injection 1 as <- <- <-; (split; [auto|]); [|discriminate].
  destruct e1; [intros [= ->]; apply Hc; reflexivity|discriminate].
Qed.

Lemma handle_left K (cb : callback unit K) s k s1 k1 r : seek_handle_save cb s k = (s1, k1, r) ->
  ss_br s1 = ss_br s /\ exists evs, calls cb k evs k1 /\ (length evs + seek_left s1 <= seek_left s)%nat.
Proof.
  unfold seek_handle_save, seek_left. destruct (ss_want s) eqn:Hw.
  - destruct (ss_ssc s).
    + destruct (cb _ k) as [k' x] eqn:E. injection 1 as <- <- <-. split; [reflexivity|]. eexists [(_, x)]. cbn [calls length ss_want]. split; [exists k'; split; [exact E|reflexivity]|lia].
    + injection 1 as <- <- <-. split; [reflexivity|]. exists []. cbn. auto.
  - injection 1 as <- <- <-. split; [reflexivity|]. exists []. cbn [calls length]. rewrite Hw. auto.
Qed.

Lemma seek_resume_left s c s' r : seek_resume s c = (s', r) -> ss_want s' = ss_want s /\ (seek_calm s -> seek_calm s').
Proof.
  unfold seek_resume, seek_calm. destruct c as [c|]; [destruct (ck_off c <? 0); [injection 1 as <- _; auto|]|];
    destruct (rs_seek _ _) as [rs' [e|]]; injection 1 as <- _; (split; [reflexivity|]); cbn; auto; discriminate.
Qed.

Definition seek_budget : budget seek_source.
Proof.
  apply (MkBudget seek_source seek_left seek_calm).
  - intros st H. unfold seek_left. cbn. destruct (ss_want st); (split; [exact H|lia]).
  - intros st H. unfold seek_left. cbn. split; [exact H|lia].
  - intros st c st' r Hok H _ _. unfold seek_left. destruct (seek_resume_left st c st' r H) as [-> H2]. auto.
  - intros K cb st k n st' k' d e Hok H. cbn [s_read seek_source] in H. unfold seek_read in H. pose proof Hok as Hok'. unfold seek_calm in Hok.
    destruct (ss_br st) as [b0|] eqn:Eb; [|injection H as <- <- _ <-; exists []; cbn; splits; auto; discriminate].
    destruct (n =? 0)%nat; [injection H as <- <- _ <-; exists []; cbn; splits; auto; discriminate|].
    destruct (_ =? 0); [injection H as <- <- _ <-; exists []; cbn; splits; auto; discriminate|].
    destruct (_ && _); [discriminate|]. destruct (seek_handle_save cb st k) as [[s1 k1] r] eqn:Eh.
    destruct (handle_left _ _ _ _ _ _ _ Eh) as (H0 & evs & H1 & H2). rewrite H0, Eb in H.
    match type of H with context [b_read ?a ?b ?c] => destruct (b_read a b c) as [[[b' rs'] d'] e'] eqn:Er end.
    destruct (b_read_calm _ _ _ _ _ _ _ Hok Er) as [C1 C2].
    destruct r; [| |discriminate]; injection H as <- <- _ <-; exists evs; (splits; auto; intros ->; exfalso; apply C2; reflexivity).
  - intros K cb st k st' k' d e Hok H. cbn [s_readbyte seek_source] in H. unfold seek_readbyte in H. pose proof Hok as Hok'. unfold seek_calm in Hok.
    destruct (ss_br st) as [b0|] eqn:Eb; [|injection H as <- <- _ <-; exists []; cbn; splits; auto; discriminate].
    destruct (ss_off st =? ss_size st); [injection H as <- <- _ <-; exists []; cbn; splits; auto; discriminate|].
    destruct (seek_handle_save cb st k) as [[s1 k1] r] eqn:Eh.
    destruct (handle_left _ _ _ _ _ _ _ Eh) as (H0 & evs & H1 & H2). rewrite H0, Eb in H.
    match type of H with context [b_readbyte ?a ?b] => destruct (b_readbyte a b) as [[b' rs'] x'] eqn:Er end.
    destruct (b_readbyte_calm _ _ _ _ _ Hok Er) as [C1 C2].
    destruct r; [| |discriminate]; destruct x'; injection H as <- <- _ <-; exists evs; splits; auto; try discriminate;
      intros [= ->]; exfalso; apply C2; reflexivity.
Defined.

(** ** decompressors *)
Section Dec.
  Context (C : codec) (cfg : dcfg) (I : source) (fuel0 : nat) (B : budget I).
  Notation src := (dcomp_source C cfg I fuel0).

  Definition sr_left (o : option (srd C)) : nat := match o with Some s => if sr_want C s then 1 else 0 | None => 0 end.
  Definition sr_calm (o : option (srd C)) : Prop := match o with Some s => not_ready (sr_fail C s) | None => True end.
  Definition dcomp_left (s : dstate C I) : nat := (bl B (ds_in C I s) + sr_left (ds_sr C I s))%nat.
  Definition dcomp_calm (s : dstate C I) : Prop := bl_ok B (ds_in C I s) /\ sr_calm (ds_sr C I s).

  Lemma onsave_left : forall evs a b, calls (dcomp_onsave C I) a evs b ->
    (sr_left (snd b) <= sr_left (snd a) + length evs)%nat /\ (sr_calm (snd a) -> sr_calm (snd b)) /\ (forall c e, ~ In (c, CErr e) evs).
  Proof.
    induction evs as [|[c r] evs IH]; cbn [calls length]; intros a b H; [subst; splits; auto; lia|].
    destruct H as (k1 & H1 & H2). apply IH in H2. destruct H2 as (I1 & I2 & I3).
    assert ((sr_left (snd k1) <= sr_left (snd a) + 1)%nat /\ (sr_calm (snd a) -> sr_calm (snd k1)) /\ forall e, r <> CErr e) as (J1 & J2 & J3).
    { unfold dcomp_onsave in H1. destruct (snd a) as [s|] eqn:E; injection H1 as <- <-; cbn [snd sr_left sr_want sr_calm sr_fail]; splits; auto; try discriminate; lia. }
    splits; auto; [lia|]. intros c0 e [[= -> ->]|Hi]; [exact (J3 e eq_refl)|exact (I3 _ _ Hi)].
  Qed.

  Lemma full_left K (cb : callback (s_ck I) K) : forall fuel i k n i' k' d e, bl_ok B i ->
    read_full I cb fuel i k n = (i', k', Ok (d, e)) ->
    exists evs, calls cb k evs k' /\ (length evs + bl B i' <= bl B i)%nat /\ bl_ok B i' /\
      (e = Some EReadyToSave -> exists c, In (c, CErr EReadyToSave) evs).
  Proof.
    induction fuel as [|f IH]; intros i k n i' k' d e Hi H; (destruct n as [|n]; cbn [read_full] in H;
      [injection H as <- <- _ <-; exists []; cbn; splits; auto; discriminate|]); [discriminate|].
    destruct (s_read I cb i k (Datatypes.S n)) as [[i1 k1] r1] eqn:Er. destruct r1 as [d1 e1| |]; try discriminate.
    destruct (bl_read B _ _ _ _ _ _ _ _ _ Hi Er) as (evs & H1 & H2 & H3 & H4).
    destruct (_ <=? _)%nat; [injection H as <- <- _ <-; exists evs; splits; auto; discriminate|].
    destruct e1 as [e1|]; [injection H as <- <- _ <-; exists evs; splits; auto|].
    destruct (read_full I cb f i1 k1 _) as [[i2 k2] [[d2 e2]|e2| |]] eqn:Ef; try discriminate.
    injection H as <- <- _ <-. destruct (IH _ _ _ _ _ _ _ H3 Ef) as (evs2 & G1 & G2 & G3 & G4).
    exists (evs ++ evs2). rewrite app_length. splits; auto; [eapply calls_app; eauto|lia|].
    intros E. destruct (G4 E) as (c & Hc). exists c. apply in_or_app. right. exact Hc.
  Qed.

  Lemma sr_read_left : forall fuel i sck s n i1 sck1 s1 d e, bl_ok B i -> not_ready (sr_fail C s) ->
    sr_read C I fuel0 fuel i sck s n = (i1, sck1, s1, RRet d e) ->
    bl_ok B i1 /\ not_ready (sr_fail C s1) /\
    (bl B i1 + sr_left (Some s1) + (match e with Some EReadyToSave => 1 | _ => 0 end) <= bl B i + sr_left (Some s))%nat.
  Proof.
    assert (Hpend : forall fuel i sck s n i1 sck1 s1 d e b bs, bl_ok B i -> not_ready (sr_fail C s) -> sr_pend C s = b :: bs ->
      sr_read C I fuel0 fuel i sck s n = (i1, sck1, s1, RRet d e) ->
      bl_ok B i1 /\ not_ready (sr_fail C s1) /\
      (bl B i1 + sr_left (Some s1) + (match e with Some EReadyToSave => 1 | _ => 0 end) <= bl B i + sr_left (Some s))%nat).
    { intros fuel i sck s n i1 sck1 s1 d e b bs Hi Hc Hp H.
      destruct fuel; cbn [sr_read] in H; rewrite Hp in H;
        (destruct (skipn n (b :: bs)); [|injection H as <- _ <- _ <-; splits; auto; cbn; lia]);
        (destruct (cd_step C (sr_d C s)); [| | |destruct (sr_want C s) eqn:Ew; destruct (cd_eager_save C); cbn [andb] in H|destruct (cd_eager C)|destruct (cd_eager C)]);
        injection H as <- _ <- _ <-; splits; auto; cbn [sr_left sr_want]; rewrite ?Ew; lia. }
    induction fuel as [|f IH]; intros i sck s n i1 sck1 s1 d e Hi Hc H; (destruct (sr_pend C s) as [|b bs] eqn:Hp; [|exact (Hpend _ _ _ _ _ _ _ _ _ _ _ _ Hi Hc Hp H)]);
      cbn [sr_read] in H; rewrite Hp in H; (destruct (sr_fail C s) as [e0|] eqn:Ef; [injection H as <- _ <- _ <-; splits; auto; [rewrite Ef; exact Hc|]; destruct e0; cbn; try lia; exfalso; apply Hc; reflexivity|]);
      [discriminate|].
    destruct (cd_step C (sr_d C s)) as [kk|nn kk|b bs d'|d'| |] eqn:Est.
    - destruct (s_readbyte I (dcomp_onsave C I) i (sck, Some s)) as [[i' [sck' os']] r'] eqn:Er.
      destruct r' as [b e'| |]; [|destruct os'; discriminate|destruct os'; discriminate].
      destruct (bl_readbyte B _ _ _ _ _ _ _ _ Hi Er) as (evs & H1 & H2 & H3 & H4).
      destruct (onsave_left _ _ _ H1) as (O1 & O2 & O3). cbn [snd] in O1, O2.
      destruct os' as [s'|]; [|destruct e'; discriminate].
      destruct e' as [e'|].
      + injection H as <- _ <- _ <-.
        assert (Hx : not_ready (Some (match e' with EEof => EUnexpectedEof | _ => e' end))).
        { intros E. destruct H4 as (c & Hin); [destruct e'; try discriminate; reflexivity|exact (O3 _ _ Hin)]. }
        splits; auto. cbn [sr_left sr_want] in *. destruct e'; try lia. exfalso. apply Hx. reflexivity.
      + apply IH in H; [|exact H3|discriminate]. destruct H as (X1 & X2 & X3). splits; auto. cbn [sr_left sr_want] in *. lia.
    - destruct (read_full I (dcomp_onsave C I) fuel0 i (sck, Some s) nn) as [[i' [sck' os']] r'] eqn:Er.
      destruct r' as [[b e']|e'| |]; [|destruct os'; discriminate|destruct os'; discriminate|destruct os'; discriminate].
      destruct (full_left _ _ _ _ _ _ _ _ _ _ Hi Er) as (evs & H1 & H2 & H3 & H4).
      destruct (onsave_left _ _ _ H1) as (O1 & O2 & O3). cbn [snd] in O1, O2.
      destruct os' as [s'|]; [|destruct e'; discriminate].
      destruct e' as [e'|].
      + injection H as <- _ <- _ <-.
        assert (Hx : not_ready (Some (match e' with EEof => EUnexpectedEof | _ => e' end))).
        { intros E. destruct H4 as (c & Hin); [destruct e'; try discriminate; reflexivity|exact (O3 _ _ Hin)]. }
        splits; auto. cbn [sr_left sr_want] in *. destruct e'; try lia. exfalso. apply Hx. reflexivity.
      + apply IH in H; [|exact H3|discriminate]. destruct H as (X1 & X2 & X3). splits; auto. cbn [sr_left sr_want] in *. lia.
    - apply IH in H; auto; discriminate.
    - destruct (sr_want C s) eqn:Ew.
      + injection H as <- _ <- _ <-. splits; auto. cbn [sr_left sr_want]. rewrite Ew. lia.
      + apply IH in H; [|auto|discriminate]. destruct H as (X1 & X2 & X3). splits; auto. cbn [sr_left sr_want] in *. lia.
    - injection H as <- _ <- _ <-. splits; auto; [rewrite Ef; discriminate|lia].
    - injection H as <- _ <- _ <-. splits; auto; [rewrite Ef; discriminate|lia].
  Qed.

  Lemma dcomp_read_left K (cb : callback (dck C I) K) st k n st' k' d e : dcomp_calm st -> dcomp_read C cfg I fuel0 cb st k n = (st', k', RRet d e) ->
    exists evs, calls cb k evs k' /\ (length evs + dcomp_left st' <= dcomp_left st)%nat /\ dcomp_calm st' /\
      (e = Some EReadyToSave -> exists c, In (c, CErr EReadyToSave) evs).
  Proof.
    intros [Hi Hs] H. unfold dcomp_read in H. unfold dcomp_left. 
    destruct (ds_sr C I st) as [sr|] eqn:Esr; [|injection H as <- <- _ <-; exists []; cbn; splits; auto; [rewrite Esr; auto|split; [auto|rewrite Esr; auto]|discriminate]].
    destruct (sr_read C I fuel0 fuel0 _ _ sr n) as [[[i1 sck1] sr1] [d1 e1| |]] eqn:Er; [|discriminate|discriminate].
    destruct (sr_read_left _ _ _ _ _ _ _ _ _ _ Hi Hs Er) as (X1 & X2 & X3).
    destruct e1 as [[]|]; try (injection H as <- <- _ <-; exists []; cbn [calls length ds_in ds_sr]; splits; [auto|lia|split; auto|discriminate]).
    destruct sck1 as [c|]; [|injection H as <- <- _ <-; exists []; cbn [calls length ds_in ds_sr]; splits; [auto|lia|split; auto|discriminate]].
    destruct (ds_ssc C I st); cbn [negb] in H; [|injection H as <- <- _ <-; exists []; cbn [calls length ds_in ds_sr]; splits; [auto|lia|split; auto|discriminate]].
    destruct (cd_savable C (sr_d C sr1)); cbn [negb] in H; [|injection H as <- <- _ <-; exists []; cbn [calls length ds_in ds_sr]; splits; [auto|lia|split; auto|discriminate]].
    match type of H with context [cb ?a k] => destruct (cb a k) as [k1 cr] eqn:Ec; set (ck := a) in * end.
    exists [(ck, cr)]. cbn [calls length].
    destruct cr as [|e2|]; [| |discriminate]; injection H as <- <- _ <-; cbn [ds_in ds_sr]; (splits; [exists k1; auto|lia|split; auto|]); [discriminate|].
    intros [= ->]. exists ck. left. reflexivity.
  Qed.

  Lemma setbuf_left d s : dcomp_left (dcomp_setbuf C I d s) = dcomp_left s /\ (dcomp_calm (dcomp_setbuf C I d s) <-> dcomp_calm s).
  Proof. destruct d; split; try reflexivity; tauto. Qed.

  Lemma header_left : forall fuel i sck osr d roff i' sck' r, bl_ok B i -> sr_calm osr ->
    sr_header C I fuel0 fuel i sck osr d roff = (i', sck', r) -> r <> Panic -> r <> Hang ->
    bl_ok B i' /\ (bl B i' <= bl B i)%nat /\ (forall s, r = Ok s -> sr_left (Some s) = 0%nat /\ not_ready (sr_fail C s)).
  Proof.
    induction fuel as [|f IH]; intros i sck osr d roff i' sck' r Hi Hs H Hp Hh; cbn [sr_header] in H;
      destruct (cd_step C d) as [kk|nn kk|b bs d'|d'| |];
      try (injection H as <- _ <-; splits; auto; intros s E; first [discriminate E | injection E as <-; split; [reflexivity|discriminate]]).
    - destruct (s_readbyte I (dcomp_onsave C I) i (sck, osr)) as [[i1 [sck1 os1]] r1] eqn:Er.
      destruct r1 as [b e| |]; [|injection H as _ _ <-; contradiction|injection H as _ _ <-; contradiction].
      destruct (bl_readbyte B _ _ _ _ _ _ _ _ Hi Er) as (evs & H1 & H2 & H3 & H4).
      destruct (onsave_left _ _ _ H1) as (O1 & O2 & O3). cbn [snd] in O1, O2.
      destruct e as [e|].
      + injection H as <- _ <-. splits; auto; [lia|discriminate].
      + apply IH in H; auto. destruct H as (X1 & X2 & X3). splits; auto. lia.
    - destruct (read_full I (dcomp_onsave C I) fuel0 i (sck, osr) nn) as [[i1 [sck1 os1]] r1] eqn:Er.
      destruct r1 as [[b e]|e| |]; [|injection H as _ _ <-; contradiction|injection H as _ _ <-; contradiction|injection H as _ _ <-; contradiction].
      destruct (full_left _ _ _ _ _ _ _ _ _ _ Hi Er) as (evs & H1 & H2 & H3 & H4).
      destruct (onsave_left _ _ _ H1) as (O1 & O2 & O3). cbn [snd] in O1, O2.
      destruct e as [e|].
      + injection H as <- _ <-. splits; auto; [lia|discriminate].
      + apply IH in H; auto. destruct H as (X1 & X2 & X3). splits; auto. lia.
  Qed.

  Lemma fresh_left s s' r : dcomp_calm s -> dcomp_fresh C cfg I fuel0 s = (s', r) -> r <> Panic -> r <> Hang ->
    dcomp_calm s' /\ (dcomp_left s' <= dcomp_left s)%nat.
  Proof.
    intros [Hi Hs] H Hp Hh. unfold dcomp_fresh in H. unfold dcomp_left, dcomp_calm.
    destruct (s_resume I (ds_in C I s) None) as [i1 r1] eqn:Er.
    assert (Hr : r1 <> Panic -> r1 <> Hang -> bl_ok B i1 /\ (bl B i1 <= bl B (ds_in C I s))%nat) by (intros; eapply bl_resume; eauto).
    destruct r1 as [z|e| |]; [| |injection H as _ <-; contradiction|injection H as _ <-; contradiction];
      destruct (Hr ltac:(discriminate) ltac:(discriminate)) as [R1 R2].
    2:{ injection H as <- _. cbn [ds_in ds_sr]. splits; auto. lia. }
    destruct (negb (z =? 0)); [injection H as <- _; cbn [ds_in ds_sr]; splits; auto; lia|].
    destruct (cf_hdr cfg).
    - destruct (sr_header C I fuel0 fuel0 i1 (ds_sck C I s) (ds_sr C I s) (cd_init C) 0) as [[i2 sck2] r2] eqn:Eh.
      assert (Hh2 : r2 <> Panic -> r2 <> Hang -> bl_ok B i2 /\ (bl B i2 <= bl B i1)%nat /\ (forall s, r2 = Ok s -> sr_left (Some s) = 0%nat /\ not_ready (sr_fail C s)))
        by (intros; eapply header_left; eauto).
      destruct r2 as [sr|e| |]; [| |injection H as _ <-; contradiction|injection H as _ <-; contradiction];
        destruct (Hh2 ltac:(discriminate) ltac:(discriminate)) as (X1 & X2 & X3); injection H as <- _; cbn [ds_in ds_sr].
      + destruct (X3 sr eq_refl) as [X4 X5]. splits; auto. lia.
      + splits; cbn; auto. lia.
    - injection H as <- _. cbn [ds_in ds_sr sr_left sr_calm sr_new sr_want sr_fail]. splits; auto; [discriminate|lia].
  Qed.

  Lemma discard_left : forall fuel i k delta i' k' r, bl_ok B i -> sr_calm (snd k) ->
    discard_by_read I (dcomp_onsave C I) fuel i k delta = (i', k', r) -> r <> Panic -> r <> Hang ->
    bl_ok B i' /\ sr_calm (snd k') /\ (bl B i' + sr_left (snd k') <= bl B i + sr_left (snd k))%nat.
  Proof.
    induction fuel as [|f IH]; intros i k delta i' k' r Hi Hs H Hp Hh; cbn [discard_by_read] in H;
      (destruct (delta <=? 0); [injection H as <- <- _; splits; auto|]).
    - injection H as _ _ <-. contradiction.
    - destruct (s_read I (dcomp_onsave C I) i k _) as [[i1 k1] r1] eqn:Er.
      destruct r1 as [d e| |]; [|injection H as _ _ <-; contradiction|injection H as _ _ <-; contradiction].
      destruct (bl_read B _ _ _ _ _ _ _ _ _ Hi Er) as (evs & H1 & H2 & H3 & H4).
      destruct (onsave_left _ _ _ H1) as (O1 & O2 & O3).
      destruct e as [e|].
      + injection H as <- <- _. splits; auto. lia.
      + apply IH in H; auto. destruct H as (X1 & X2 & X3). splits; auto. lia.
  Qed.

  Lemma dcomp_resume_left s c s' r : dcomp_calm s -> dcomp_resume C cfg I fuel0 s c = (s', r) -> r <> Panic -> r <> Hang ->
    dcomp_calm s' /\ (dcomp_left s' <= dcomp_left s)%nat.
  Proof.
    intros Hok H Hp Hh. unfold dcomp_resume in H. destruct c as [[coff [dk|]]|]; try (eapply fresh_left; eauto; fail).
    pose proof Hok as [Hi Hs].
    destruct (s_resume I (ds_in C I s) (dk_src C I dk)) as [i1 r1] eqn:Er.
    assert (Hr : r1 <> Panic -> r1 <> Hang -> bl_ok B i1 /\ (bl B i1 <= bl B (ds_in C I s))%nat) by (intros; eapply bl_resume; eauto).
    destruct r1 as [soff|e| |]; [| |injection H as _ <-; contradiction|injection H as _ <-; contradiction];
      destruct (Hr ltac:(discriminate) ltac:(discriminate)) as [R1 R2].
    2:{ injection H as <- _. unfold dcomp_left, dcomp_calm. cbn [ds_in ds_sr]. splits; auto. lia. }
    destruct (discard_by_read I (dcomp_onsave C I) fuel0 i1 (ds_sck C I s, ds_sr C I s) (dk_roff C I dk - soff)) as [[i2 [sck2 sr2]] r2] eqn:Ed.
    assert (Hd : r2 <> Panic -> r2 <> Hang -> bl_ok B i2 /\ sr_calm sr2 /\ (bl B i2 + sr_left sr2 <= bl B i1 + sr_left (ds_sr C I s))%nat).
    { intros. exact (discard_left fuel0 i1 (ds_sck C I s, ds_sr C I s) _ i2 (sck2, sr2) r2 R1 Hs Ed H0 H1). }
    destruct r2 as [[]|e| |]; [| |injection H as _ <-; contradiction|injection H as _ <-; contradiction];
      destruct (Hd ltac:(discriminate) ltac:(discriminate)) as (D1 & D2 & D3).
    2:{ injection H as <- _. unfold dcomp_left, dcomp_calm. cbn [ds_in ds_sr]. splits; auto. lia. }
    destruct (soff <=? dk_roff C I dk).
    - destruct (dk_snap C I dk) as [d|].
      + injection H as <- _. unfold dcomp_left, dcomp_calm. cbn [ds_in ds_sr sr_left sr_calm sr_new sr_want sr_fail]. splits; auto; [discriminate|lia].
      + destruct (s_resume I i2 None) as [i3 r3] eqn:Er3.
        assert (Hr3 : r3 <> Panic -> r3 <> Hang -> bl_ok B i3 /\ (bl B i3 <= bl B i2)%nat) by (intros; eapply bl_resume; eauto).
        destruct r3 as [z|e| |]; [| |injection H as _ <-; contradiction|injection H as _ <-; contradiction];
          destruct (Hr3 ltac:(discriminate) ltac:(discriminate)) as [Q1 Q2].
        * apply fresh_left in H; [|split; [exact Q1|exact Logic.I]|exact Hp|exact Hh]. destruct H as [F1 F2]. split; [exact F1|].
          unfold dcomp_left in *. cbn [ds_in ds_sr sr_left] in *. lia.
        * injection H as <- _. unfold dcomp_left, dcomp_calm. cbn [ds_in ds_sr sr_left sr_calm]. splits; auto. lia.
    - apply fresh_left in H; [|split; [exact D1|exact D2]|exact Hp|exact Hh]. destruct H as [F1 F2]. split; [exact F1|].
      unfold dcomp_left in *. cbn [ds_in ds_sr] in *. lia.
  Qed.

  Definition dcomp_budget : budget src.
  Proof.
    apply (MkBudget src dcomp_left dcomp_calm).
    - intros st [Hi Hs]. destruct (bl_want B _ Hi) as [H1 H2]. unfold dcomp_left, dcomp_calm. cbn. split; [split; [exact H1|exact Hs]|lia].
    - intros st [Hi Hs]. destruct (bl_setssc B _ Hi) as [H1 H2]. unfold dcomp_left, dcomp_calm. cbn. split; [split; [exact H1|exact Hs]|lia].
    - intros st c st' r Hok H Hp Hh. exact (dcomp_resume_left st c st' r Hok H Hp Hh).
    - intros K cb st k n st' k' d e Hok H. exact (dcomp_read_left K cb st k n st' k' d e Hok H).
    - intros K cb st k st' k' b e Hok H. cbn [s_readbyte dcomp_source] in H. unfold dcomp_readbyte in H.
      destruct (ds_sr C I st); [|injection H as <- <- _ <-; exists []; cbn; splits; auto; discriminate].
      destruct (dcomp_read C cfg I fuel0 cb st k 1) as [[s1 k1] [d1 e1| |]] eqn:E1; [|discriminate|discriminate].
      destruct (dcomp_read_left _ _ _ _ _ _ _ _ _ Hok E1) as (evs & H1 & H2 & H3 & H4).
      destruct d1 as [|x d1].
      + destruct (dcomp_read C cfg I fuel0 cb s1 k1 1) as [[s2 k2] [d2 e2| |]] eqn:E2; [|discriminate|discriminate].
        destruct (dcomp_read_left _ _ _ _ _ _ _ _ _ H3 E2) as (evs2 & G1 & G2 & G3 & G4).
        cbv zeta in H. injection H as <- <- _ <-. destruct (setbuf_left d2 s2) as [-> Hb].
        exists (evs ++ evs2). splits; [eapply calls_app; eauto|rewrite app_length; lia|apply Hb; exact G3|].
        intros He. destruct (G4 He) as (c & Hin). exists c. apply in_or_app. auto.
      + cbv zeta in H. injection H as <- <- _ <-. exists evs. splits; [exact H1|exact H2|exact H3|exact H4].
  Defined.
End Dec.

Fixpoint stk_budget (k : stk) : budget (stk_source k) :=
  match k with
  | KSeek => seek_budget
  | KDec C cfg fuel s => dcomp_budget C cfg (stk_source s) fuel (stk_budget s)
  end.

Lemma stk_new_budget rs start size : forall k, bl_ok (stk_budget k) (stk_new k rs start size) /\ bl (stk_budget k) (stk_new k rs start size) = 0%nat.
Proof.
  induction k as [|C cfg fuel s [IH1 IH2]]; [split; cbn; auto|].
  cbn. unfold dcomp_calm, dcomp_left. cbn. rewrite IH2. splits; auto.
Qed.

(** ** The same when Save calls Resume. *)
Lemma re_left k K (before : K -> sckpt (s_ck (stk_source k)) -> K * option cres) after st kk n st' kk' r :
  (forall a x, x = Panic \/ x = Hang -> snd (after a x) = CPanic) -> bl_ok (stk_budget k) st ->
  stk_read_re k (re_cb (stk_source k) before after) st kk n = (st', kk', r) ->
  (kk' = kk \/ (1 <= bl (stk_budget k) st)%nat) /\
  (forall d e, r = RRet d e -> bl_ok (stk_budget k) st' /\
    ((kk' = kk /\ bl (stk_budget k) st' <= bl (stk_budget k) st) \/ (bl (stk_budget k) st' + 1 <= bl (stk_budget k) st))%nat).
Proof.
  intros Haft Hok Hr. destruct k as [|C cfg fuel s].
  - change (seek_read_re (re_cb seek_source before after) st kk n = (st', kk', r)) in Hr.
    change (seek_calm st) in Hok. change (bl (stk_budget KSeek)) with seek_left. change (bl_ok (stk_budget KSeek)) with seek_calm.
    assert (Hsame : forall (r1 : rres) (kk1 : K), (st, kk, r1) = (st', kk', r) ->
      (kk' = kk \/ (1 <= seek_left st)%nat) /\
      (forall d e, r = RRet d e -> seek_calm st' /\ ((kk' = kk /\ seek_left st' <= seek_left st) \/ (seek_left st' + 1 <= seek_left st))%nat)).
    { intros r1 kk1 [= <- <- <-]. split; [auto|]. intros d e _. split; [exact Hok|]. left. split; [reflexivity|lia]. }
    unfold seek_read_re in Hr. destruct (ss_br st) as [b0|] eqn:Eb; [|eauto].
    destruct (n =? 0)%nat; [eauto|]. destruct (_ =? 0); [eauto|]. destruct (_ && _); [eauto|]. clear Hsame.
    assert (Hgo : forall s1 k1 cr, seek_handle_save_re (re_cb seek_source before after) st kk = (s1, k1, cr) ->
      (k1 = kk \/ (1 <= seek_left st)%nat) /\
      (cr <> CPanic -> seek_calm s1 /\ ((k1 = kk /\ seek_left s1 <= seek_left st) \/ (seek_left s1 + 1 <= seek_left st))%nat)).
    { intros s1 k1 cr. unfold seek_handle_save_re, seek_left. destruct (ss_want st) eqn:Ew.
      - destruct (ss_ssc st).
        + unfold re_cb. destruct (before kk _) as [kk1 [r0|]].
          * injection 1 as <- <- <-. split; [right; lia|]. intros _. split; [exact Hok|]. right. cbn. lia.
          * match goal with |- context [s_resume seek_source ?a ?b] => destruct (s_resume seek_source a b) as [s2 rr] eqn:Er end.
            destruct (after kk1 rr) as [kk2 cr2] eqn:Ea. injection 1 as <- <- <-. split; [right; lia|]. intros _.
            destruct (seek_resume_left _ _ _ _ Er) as [Q1 Q2]. split; [apply Q2; exact Hok|]. right. rewrite Q1. cbn. lia.
        + injection 1 as <- <- <-. split; [auto|]. intros _. split; [exact Hok|]. left. split; [reflexivity|cbn; lia].
      - injection 1 as <- <- <-. split; [auto|]. intros _. split; [exact Hok|]. left. rewrite Ew. split; [reflexivity|lia]. }
    destruct (seek_handle_save_re (re_cb seek_source before after) st kk) as [[s1 k1] cr] eqn:Eh.
    destruct (Hgo _ _ _ eq_refl) as [G1 G2].
    assert (Hend : match ss_br s1 with
      | Some b => let '(b', rs', d, e) := b_read b (ss_rs s1) (if Z.of_nat n >? ss_size st - ss_off st then Z.to_nat (ss_size st - ss_off st) else n) in
          (MkSeek rs' (Some b') (ss_ssc s1) (ss_want s1) (ss_start s1) (ss_off s1 + zlen d) (ss_size s1), k1, RRet d e)
      | None => (s1, k1, RPanic)
      end = (st', kk', r) -> cr <> CPanic ->
      (kk' = kk \/ (1 <= seek_left st)%nat) /\
      (forall d e, r = RRet d e -> seek_calm st' /\ ((kk' = kk /\ seek_left st' <= seek_left st) \/ (seek_left st' + 1 <= seek_left st))%nat)).
    { intros H Hcr. destruct (ss_br s1) as [b1|] eqn:E1; [|injection H as <- <- <-; split; [exact G1|discriminate]].
      destruct (G2 Hcr) as [Hc Hl]. unfold seek_calm in Hc. rewrite E1 in Hc.
      destruct (b_read b1 (ss_rs s1) _) as [[[b' rs'] d] e] eqn:Ebr. destruct (b_read_calm _ _ _ _ _ _ _ Hc Ebr) as [Hc1 _].
      injection H as <- <- <-. split; [exact G1|]. intros d0 e0 _. split; [exact Hc1|exact Hl]. }
    destruct cr; [apply Hend; [exact Hr|discriminate]|apply Hend; [exact Hr|discriminate]|].
    injection Hr as <- <- <-. split; [exact G1|discriminate].
  - pose proof (eq_trans (eq_sym (dcomp_read_re_eq C cfg (stk_source s) fuel K (re_cb _ before after) st kk n)) Hr) as Hr'. clear Hr. rename Hr' into Hr.
    set (B := stk_budget (KDec C cfg fuel s)) in *.
    destruct (dcomp_read C cfg (stk_source s) fuel rec_cb st [] n) as [[s1 l] r1] eqn:E.
    assert (Hl : forall d e, r1 = RRet d e -> (length l + bl B s1 <= bl B st)%nat /\ bl_ok B s1).
    { intros d e ->. destruct (bl_read B _ rec_cb st [] n s1 l d e Hok E) as (evs & H1 & H2 & H3 & _).
      destruct (rec_calls _ _ _ H1) as [Hev _]. cbn [app] in Hev. rewrite Hev, map_length. auto. }
    destruct l as [|c l].
    + injection Hr as <- <- <-. split; [auto|]. intros d e He. destruct (Hl d e He) as [H1 H2]. split; [exact H2|]. left. split; [reflexivity|exact H1].
    + destruct r1 as [d e| |]; [|injection Hr as <- <- <-; split; [auto|discriminate]|injection Hr as <- <- <-; split; [auto|discriminate]].
      destruct (Hl d e eq_refl) as [H1 H2]. cbn [length] in H1.
      split; [right; lia|]. intros d0 e0 Hrr. unfold re_cb in Hr.
      destruct (before kk c) as [kk1 [r0|]].
      * injection Hr as <- <- _. split; [exact H2|right; lia].
      * destruct (s_resume (stk_source (KDec C cfg fuel s)) s1 (Some c)) as [s2 rr] eqn:Er.
        set (G := fun p : s_st (stk_source (KDec C cfg fuel s)) * res Z => let '(s2, k1, cr) := (let '(st0, r0) := p in let '(k2, cr) := after kk1 r0 in (st0, k2, cr)) in
          (s2, k1, match cr with COk => RRet d None | CErr e => RRet d (Some e) | CPanic => RPanic end)).
        pose proof (eq_trans (eq_sym (f_equal G Er)) Hr) as Hr'. unfold G in Hr'. clear Hr G.
        pose proof (Haft kk1 rr) as Hpanic. destruct (after kk1 rr) as [kk2 cr]. cbn [snd] in Hpanic. injection Hr' as <- <- Hre.
        assert (Hnp : rr <> Panic /\ rr <> Hang).
        { split; intros ->; rewrite Hpanic in Hre by auto; congruence. }
        destruct (bl_resume B s1 (Some c) s2 rr H2 Er (proj1 Hnp) (proj2 Hnp)) as [Q1 Q2]. split; [exact Q1|right; lia].
Qed.
