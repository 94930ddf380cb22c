(** Contract.v -- what it means for a Source to behave well over given data.
    This is a specification: [laws S D tm] says that source [S] delivers the
    bytes [D] and then ends with the error [tm] (io.EOF for a clean end). It is
    proved for seek sources (Seek_proofs.v) and shown to be preserved by the
    decompressing sources (Decomp_proofs.v), hence for stacks of them. *)
From Verif Require Import Base Base_proofs Source.

(** The sequence of Save calls made during a source operation. *)
Fixpoint calls {CK K} (cb : callback CK K) (k : K) (evs : list (sckpt CK * cres)) (k' : K) : Prop :=
  match evs with
  | [] => k' = k
  | (c, r) :: rest => exists k1, cb c k = (k1, r) /\ calls cb k1 rest k'
  end.

Record laws (S : source) (D : bytes) (tm : gerr) := MkLaws {
  (** may be resumed *)
  lw_wf : s_st S -> Prop;
  (** resumed and positioned at byte [o]; at most [m] more successful reads *)
  lw_at : s_st S -> nat -> nat -> Prop;
  (** no save request is under way *)
  lw_quiet : s_st S -> Prop;
  (** no fault of the underlying storage is in sight *)
  lw_clean : s_st S -> Prop;
  (** genuine checkpoints *)
  lw_ck : sckpt (s_ck S) -> Prop;
  lw_bound : nat;
  (** checkpoints may be taken after the data of the same read *)
  lw_late : bool;
  (** the terminal error is never returned together with data *)
  lw_polite : bool;

  lw_tm : tm <> EReadyToSave;
  lw_at_wf : forall st o m, lw_at st o m -> lw_wf st;
  lw_at_len : forall st o m, lw_at st o m -> (o <= length D)%nat /\ (m <= lw_bound)%nat;
  lw_ck_len : forall c, lw_ck c -> 0 <= ck_off c <= zlen D;
  lw_setssc : forall st, lw_wf st -> lw_wf (s_setssc S st)
     /\ (forall o m, lw_at st o m -> lw_at (s_setssc S st) o m)
     /\ (lw_quiet st -> lw_quiet (s_setssc S st))
     /\ (lw_clean st -> lw_clean (s_setssc S st));
  lw_want : forall st o m, lw_at st o m -> lw_at (s_want S st) o m
     /\ (lw_clean st -> lw_clean (s_want S st));
  lw_prog : forall st o m, lw_at st o m -> (0 <= s_progress S st <= 1)%Q;

  lw_resume : forall st c st' r,
    lw_wf st -> (forall x, c = Some x -> lw_ck x) -> s_resume S st c = (st', r) ->
    match r with
    | Ok z =>
        z = match c with Some x => ck_off x | None => 0 end
        /\ exists m, lw_at st' (Z.to_nat z) m
        /\ (lw_quiet st -> lw_quiet st') /\ (lw_clean st -> lw_clean st')
    | Err e => ~ lw_clean st \/ (D = [] /\ tm <> EEof)
    | Panic => False
    | Hang => False
    end;

  lw_read : forall K (cb : callback (s_ck S) K) st k n o m st' k' r,
    lw_at st o m -> (0 < n)%nat -> s_read S cb st k n = (st', k', r) ->
    exists evs, calls cb k evs k' /\ (length evs <= 1)%nat
      /\ (forall c rr, In (c, rr) evs -> ~ lw_quiet st /\ lw_ck c)
      /\ match r with
         | RRet d e =>
             (length d <= n)%nat /\ d = slice D o (length d)
             /\ (exists m', lw_at st' (o + length d) m' /\ (m' <= m)%nat /\ (e = None -> (m' < m)%nat))
             /\ (lw_quiet st -> lw_quiet st') /\ (lw_clean st -> lw_clean st')
             /\ (forall c rr, In (c, rr) evs -> rr <> CPanic /\
                  (ck_off c = Z.of_nat o \/ lw_late = true /\ ck_off c = Z.of_nat (o + length d)))
             /\ match e with
                | None => True
                | Some e =>
                    (o + length d = length D /\ e = tm /\ (lw_polite = true -> d = []))%nat
                    \/ (exists c, In (c, CErr e) evs)
                    \/ (~ lw_clean st /\ e <> EEof /\ e <> EReadyToSave)
                end
         | RPanic => exists c, In (c, CPanic) evs
         | RHang => False
         end;

  (** while no save is requested, a read without error delivers something *)
  lw_fwd : forall K (cb : callback (s_ck S) K) st k n o m st' k' d,
    lw_at st o m -> lw_quiet st -> (0 < n)%nat -> s_read S cb st k n = (st', k', RRet d None) -> d <> [] }.

Arguments lw_wf {S D tm} l _.
Arguments lw_at {S D tm} l _ _ _.
Arguments lw_quiet {S D tm} l _.
Arguments lw_clean {S D tm} l _.
Arguments lw_ck {S D tm} l _.
Arguments lw_bound {S D tm} l.
Arguments lw_late {S D tm} l.
Arguments lw_polite {S D tm} l.

(** The additional law for ReadByte. *)
Definition byte_law {S D tm} (L : laws S D tm) : Prop :=
  forall K (cb : callback (s_ck S) K) st k o m st' k' r,
    lw_at L st o m -> s_readbyte S cb st k = (st', k', r) ->
    exists evs, calls cb k evs k'
      /\ (forall c rr, In (c, rr) evs -> ~ lw_quiet L st /\ lw_ck L c)
      /\ match r with
         | BRet b None =>
             nth_error D o = Some b
             /\ (exists m', lw_at L st' (o + 1) m' /\ (m' < m)%nat)
             /\ (lw_quiet L st -> lw_quiet L st') /\ (lw_clean L st -> lw_clean L st')
             /\ (forall c rr, In (c, rr) evs -> rr <> CPanic /\ Z.of_nat o <= ck_off c <= Z.of_nat (o + 1))
         | BRet _ (Some e) =>
             (forall c rr, In (c, rr) evs -> rr <> CPanic /\ Z.of_nat o <= ck_off c <= Z.of_nat (o + 1))
             /\ (lw_quiet L st -> lw_quiet L st') /\ (lw_clean L st -> lw_clean L st')
             /\ ((exists m', lw_at L st' o m' /\ (m' <= m)%nat)
                 /\ ((o = length D /\ e = tm) \/ (~ lw_clean L st /\ e <> EEof /\ e <> EReadyToSave))
                 \/ ((exists c, In (c, CErr e) evs) /\ exists o' m', lw_at L st' o' m'))
         | BPanic => exists c, In (c, CPanic) evs
         | BHang => False
         end.

(** Resuming from [c] (any checkpoint, not necessarily a genuine one) leaves a
    source that is not about to save at some offset between [lo] and [hi]. *)
Definition lands {S D tm} (L : laws S D tm) (c : option (sckpt (s_ck S))) (lo hi : Z) : Prop :=
  forall st st' r, lw_wf L st -> lw_quiet L st -> s_resume S st c = (st', r) ->
    match r with
    | Ok z => lo <= z <= hi /\ (exists m, lw_at L st' (Z.to_nat z) m) /\ lw_quiet L st' /\ (lw_clean L st -> lw_clean L st')
    | Err _ => ~ lw_clean L st \/ (D = [] /\ tm <> EEof)
    | _ => False
    end.

Lemma lands_weaken {S D tm} (L : laws S D tm) c lo hi lo' hi' : lands L c lo hi -> lo' <= lo -> hi <= hi' -> lands L c lo' hi'.
Proof. intros H H1 H2 st st' r Hw Hq Hr. specialize (H st st' r Hw Hq Hr). destruct r; auto. destruct H as (? & ?). split; [lia|assumption]. Qed.

Lemma lands_genuine {S D tm} (L : laws S D tm) c : (forall x, c = Some x -> lw_ck L x) ->
  lands L c (match c with Some x => ck_off x | None => 0 end) (match c with Some x => ck_off x | None => 0 end).
Proof.
  intros Hc st st' r Hw Hq Hr. pose proof (lw_resume _ _ _ L _ _ _ _ Hw Hc Hr) as H. destruct r; auto.
  destruct H as (-> & m & H1 & H2 & H3). split; [lia|]. split; [eauto|]. split; auto.
Qed.

(** DiscardByRead on a lawful source. *)
Section Discard.
  Context {S : source} {D : bytes} {tm : gerr} (L : laws S D tm).

  (** Calls never fail: callbacks that only ever return COk. *)
  Lemma discard_ok K (cb : callback (s_ck S) K) (P : K -> Prop) :
    forall fuel st k delta o m st' k' r,
    (forall c k0 k1 rr, P k0 -> lw_ck L c -> cb c k0 = (k1, rr) -> ~ lw_quiet L st -> rr = COk /\ P k1) ->
    P k -> lw_at L st o m -> (m < fuel)%nat ->
    discard_by_read S cb fuel st k delta = (st', k', r) ->
    P k' /\ (lw_quiet L st -> lw_quiet L st' /\ k' = k) /\
    match r with
    | Ok _ => exists m', lw_at L st' (o + Z.to_nat delta) m' /\ (m' <= m)%nat /\ (lw_clean L st -> lw_clean L st')
    | Err e => exists o' m', lw_at L st' o' m' /\ (o <= o' <= o + Z.to_nat delta)%nat /\ (lw_clean L st -> lw_clean L st') /\
        e <> EEof /\ (~ lw_clean L st \/
        (o' = length D /\ e = with_stack tm /\ (Z.to_nat delta + o >= length D)%nat /\
        (Z.to_nat delta + o = length D -> lw_polite L = false)%nat))
    | _ => False
    end.
  Proof.
    induction fuel as [|f IH]; intros st k delta o m st' k' r Hcb HP Hat Hm; [lia|].
    cbn [discard_by_read].
    destruct (delta <=? 0) eqn:Hd.
    - injection 1 as <- <- <-. split; [exact HP|]. split; [tauto|].
      exists m. replace (o + Z.to_nat delta)%nat with o by lia. auto.
    - destruct (s_read S cb st k (Z.to_nat (Z.min delta discard_buf))) as [[s1 k1] rr] eqn:Hr.
      assert (Hn : (0 < Z.to_nat (Z.min delta discard_buf))%nat) by (unfold discard_buf; lia).
      destruct (lw_read _ _ _ L K cb st k _ o m s1 k1 rr Hat Hn Hr) as (evs & Hcalls & Hlen & Hgen & Hres).
      assert (HPk : P k1 /\ (forall c x, In (c, x) evs -> x = COk)).
      { destruct evs as [|[c x] [|? ?]]; cbn in Hlen; try lia.
        - cbn in Hcalls; subst; split; [exact HP|]. intros ? ? [].
        - cbn in Hcalls. destruct Hcalls as (k2 & Hc & ->).
          destruct (Hgen c x (or_introl eq_refl)) as [Hnq Hck].
          destruct (Hcb c k k2 x HP Hck Hc Hnq) as [-> HP2]. split; [exact HP2|].
          intros c' x' [H|[]]. congruence. }
      destruct HPk as [HP1 Hev].
      assert (Hquietk : lw_quiet L st -> k1 = k).
      { intros Hq. destruct evs as [|[c x] evs']; [exact Hcalls|].
        destruct (Hgen c x (or_introl eq_refl)); tauto. }
      destruct rr as [d e| |].
      + destruct Hres as (Hdn & Hds & (m1 & Hat1 & Hm1 & Hm1') & Hq & Hc & Hevs & He).
        destruct e as [e|].
        * injection 1 as <- <- <-. split; [exact HP1|]. split; [auto|].
          exists (o + length d)%nat, m1. split; [exact Hat1|]. split; [unfold discard_buf in *; lia|]. split; [exact Hc|].
          destruct He as [(Hend & -> & Hpol)|[(c & Hin)|(Hnc & He1 & He2)]].
          -- split.
             { pose proof (lw_tm _ _ _ L) as Ht. destruct tm; cbn; congruence. }
             right. split; [exact Hend|]. split; [reflexivity|]. unfold discard_buf in *. split; [lia|].
             intros Heq. destruct (lw_polite L); [|reflexivity].
             assert (d = []) by auto. subst d. cbn in *.
             exfalso. assert (o = length D) by lia. subst o. lia.
          -- specialize (Hev _ _ Hin). discriminate.
          -- split; [destruct e; cbn; congruence|]. left; exact Hnc.
        * intros Hrec.
          assert (Hcb' : forall c k0 k2 rr, P k0 -> lw_ck L c -> cb c k0 = (k2, rr) -> ~ lw_quiet L s1 -> rr = COk /\ P k2).
          { intros c k0 k2 rr H1 H2 H3 H4. apply (Hcb c k0 k2 rr H1 H2 H3). tauto. }
          specialize (Hm1' eq_refl).
          assert (Hmf : (m1 < f)%nat) by lia.
          destruct (IH s1 k1 (delta - zlen d) (o + length d)%nat m1 st' k' r Hcb' HP1 Hat1 Hmf Hrec)
            as (HP' & Hq' & Hr').
          split; [exact HP'|]. split.
          { intros Hqs. destruct (Hq' (Hq Hqs)) as [? ->]. split; auto. }
          unfold discard_buf in *.
          destruct r as [u|e| |]; try exact Hr'.
          -- destruct Hr' as (m2 & Hat2 & Hm2 & Hcl2). exists m2.
             replace (o + Z.to_nat delta)%nat with (o + length d + Z.to_nat (delta - zlen d))%nat
               by (unfold zlen; lia).
             split; [exact Hat2|]. split; [lia|]. auto.
          -- destruct Hr' as (o2 & m2 & Hat2 & Ho2 & Hcl2 & He1 & Hr').
             exists o2, m2. split; [exact Hat2|]. split; [unfold zlen in *; lia|]. split; [auto|]. split; [exact He1|].
             destruct Hr' as [Hnc|(Hx & He2 & Hge & Hp)].
             ++ left. auto.
             ++ right. split; [exact Hx|]. split; [exact He2|].
                pose proof (proj1 (lw_at_len _ _ _ L _ _ _ Hat1)).
                unfold zlen in *. split; [lia|]. intros Heq. apply Hp. lia.
      + destruct Hres as (c & Hin). specialize (Hev _ _ Hin). discriminate.
      + destruct Hres.
  Qed.
End Discard.

Lemma calls_app {CK K} (cb : callback CK K) : forall e1 e2 k k1 k2, calls cb k e1 k1 -> calls cb k1 e2 k2 -> calls cb k (e1 ++ e2) k2.
Proof.
  induction e1 as [|[c r] e1 IH]; intros e2 k k1 k2 H1 H2; cbn in *.
  - subst. exact H2.
  - destruct H1 as (k0 & Hc & H1). exists k0. split; [exact Hc|]. eapply IH; eauto.
Qed.

(** io.ReadFull on a lawful source, with any callback. *)
Section Full.
  Context {S : source} {D : bytes} {tm : gerr} (L : laws S D tm).

  Lemma read_full_laws K (cb : callback (s_ck S) K) : forall fuel n st k o m st' k' r,
    lw_at L st o m -> (m < fuel)%nat -> read_full S cb fuel st k n = (st', k', r) ->
    exists evs, calls cb k evs k' /\
      (forall c rr, In (c, rr) evs -> ~ lw_quiet L st /\ lw_ck L c) /\
      match r with
      | Ok (d, e) =>
          d = slice D o (length d) /\ (length d <= n)%nat /\
          (exists m', lw_at L st' (o + length d) m' /\ (m' <= m)%nat) /\
          (lw_quiet L st -> lw_quiet L st') /\ (lw_clean L st -> lw_clean L st') /\
          (forall c rr, In (c, rr) evs -> rr <> CPanic /\ Z.of_nat o <= ck_off c <= Z.of_nat (o + length d)) /\
          match e with
          | None => length d = n
          | Some e => (length d < n)%nat /\
              ((o + length d = length D)%nat /\ e = tm \/ (exists c, In (c, CErr e) evs) \/
               (~ lw_clean L st /\ e <> EEof /\ e <> EReadyToSave))
          end
      | Panic => exists c, In (c, CPanic) evs
      | _ => False
      end.
  Proof.
    induction fuel as [|f IH]; intros n st k o m st' k' r Hat Hm; [lia|].
    destruct n as [|n]; cbn [read_full].
    { injection 1 as <- <- <-. exists []. split; [reflexivity|]. split; [intros ? ? []|].
      cbn [length]. rewrite slice_0, Nat.add_0_r. splits; auto. exists m. auto. all: intros ? ? []. }
    set (n1 := Datatypes.S n).
    destruct (s_read S cb st k n1) as [[s1 k1] rr] eqn:Hr.
    destruct (lw_read _ _ _ L K cb st k n1 o m s1 k1 rr Hat ltac:(lia) Hr) as (evs & Hcalls & _ & Hgen & Hres).
    destruct rr as [d e| |].
    2:{ injection 1 as <- <- <-. exists evs. splits; auto. }
    2:{ destruct Hres. }
    destruct Hres as (Hdn & Hds & (m1 & Hat1 & Hm1 & Hm1') & Hq & Hc & Hevs & He).
    assert (Hoffs : forall c rr, In (c, rr) evs -> rr <> CPanic /\ Z.of_nat o <= ck_off c <= Z.of_nat (o + length d)).
    { intros c rr Hi. destruct (Hevs c rr Hi) as [Ha Hb]. split; [exact Ha|]. lia. }
    destruct (n1 <=? length d)%nat eqn:Hle.
    { apply Nat.leb_le in Hle. injection 1 as <- <- <-. exists evs. split; [exact Hcalls|]. split; [exact Hgen|].
      splits; auto; [eauto|lia]. }
    apply Nat.leb_gt in Hle. destruct e as [e|].
    { injection 1 as <- <- <-. exists evs. split; [exact Hcalls|]. split; [exact Hgen|].
      split; [exact Hds|]. split; [lia|]. split; [eauto|]. split; [exact Hq|]. split; [exact Hc|]. split; [exact Hoffs|].
      split; [exact Hle|]. destruct He as [(H1 & H2 & _)|He]; [left; auto|right; exact He]. }
    specialize (Hm1' eq_refl).
    destruct (read_full S cb f s1 k1 (n1 - length d)) as [[s2 k2] r2] eqn:Hrec.
    destruct (IH _ _ _ _ _ _ _ _ Hat1 ltac:(lia) Hrec) as (evs2 & Hcalls2 & Hgen2 & Hres2).
    assert (Hcc : calls cb k (evs ++ evs2) k2) by (eapply calls_app; eassumption).
    assert (Hgg : forall c rr, In (c, rr) (evs ++ evs2) -> ~ lw_quiet L st /\ lw_ck L c).
    { intros c rr Hi. apply in_app_or in Hi. destruct Hi as [Hi|Hi]; [exact (Hgen c rr Hi)|].
      destruct (Hgen2 c rr Hi) as [H1 H2]. split; [tauto|exact H2]. }
    destruct r2 as [[d2 e2]|e2| |]; try contradiction.
    - injection 1 as <- <- <-. exists (evs ++ evs2). split; [exact Hcc|]. split; [exact Hgg|].
      destruct Hres2 as (G1 & G2 & (m2 & G3 & G4) & G5 & G6 & G7 & G8).
      rewrite app_length. split; [|split; [|split; [|split; [|split; [|split]]]]].
      + rewrite slice_app, <- Hds, <- G1. reflexivity.
      + lia.
      + exists m2. rewrite Nat.add_assoc. split; [exact G3|lia].
      + auto.
      + auto.
      + intros c rr Hi. apply in_app_or in Hi. destruct Hi as [Hi|Hi].
        * destruct (Hoffs c rr Hi) as [Ha Hb]. split; [exact Ha|lia].
        * destruct (G7 c rr Hi) as [Ha Hb]. split; [exact Ha|lia].
      + destruct e2 as [e2|]; [|lia]. destruct G8 as [G8 G9]. split; [lia|].
        destruct G9 as [(H1 & H2)|[(c & Hi)|(H1 & H2)]].
        * left. split; [lia|exact H2].
        * right. left. exists c. apply in_or_app. right. exact Hi.
        * right. right. split; [tauto|exact H2].
    - injection 1 as <- <- <-. exists (evs ++ evs2). split; [exact Hcc|]. split; [exact Hgg|].
      destruct Hres2 as (c & Hi). exists c. apply in_or_app. right. exact Hi.
  Qed.
End Full.
