(** TarRead_proofs.v -- reading a tar stream through a lawful source. *)
From Verif Require Import Base Base_proofs Source Contract Seek Decomp Drive Copier Sink SinkSpec Zip ZipSpec Tar TarSpec.

Section Read.
  Context {S : source} {D : bytes} {tm : gerr} (LL : laws S D tm).

  Lemma drop_calls {CK} (evs : list (sckpt CK * cres)) u u' : calls drop_cb u evs u' -> forall c r, In (c, r) evs -> r = COk.
  Proof.
    revert u. induction evs as [|[c r] evs IH]; intros u; cbn [calls]; [intros _ ? ? []|].
    intros (k1 & Hc & H) c' r' [Hi|Hi]; [|exact (IH _ H _ _ Hi)]. unfold drop_cb in Hc. congruence.
  Qed.

  (** one Read during Next *)
  Lemma drop_read src o m n src' u r : lw_at LL src o m -> (0 < n)%nat -> s_read S drop_cb src tt n = (src', u, r) ->
    exists d e, r = RRet d e /\ (length d <= n)%nat /\ d = slice D o (length d) /\
      (exists m', lw_at LL src' (o + length d) m' /\ (m' <= m)%nat /\ (e = None -> (m' < m)%nat)) /\
      (lw_clean LL src -> lw_clean LL src') /\
      match e with
      | None => True
      | Some e => (o + length d = length D)%nat /\ e = tm \/ ~ lw_clean LL src /\ e <> EEof
      end.
  Proof.
    intros Hat Hn Hr.
    destruct (lw_read _ _ _ LL _ _ _ _ _ _ _ _ _ _ Hat Hn Hr) as (evs & Hcalls & _ & _ & Hres).
    pose proof (drop_calls _ _ _ Hcalls) as Hev.
    destruct r as [d e| |].
    - destruct Hres as (H1 & H2 & H3 & _ & H4 & _ & H5). exists d, e. splits; auto.
      destruct e as [e|]; [|exact H5]. destruct H5 as [(? & ? & _)|[(c & Hc)|(? & ? & ?)]]; auto.
      specialize (Hev _ _ Hc). discriminate.
    - destruct Hres as (c & Hc). specialize (Hev _ _ Hc). discriminate.
    - destruct Hres.
  Qed.

  Lemma read_full_ok : forall fuel n src o m src' u r,
    lw_at LL src o m -> read_full S drop_cb fuel src tt n = (src', u, r) ->
    match r with
    | Ok (d, None) => d = slice D o n /\ length d = n /\
        exists m', lw_at LL src' (o + n) m' /\ (m' <= m)%nat /\ (lw_clean LL src -> lw_clean LL src')
    | Ok (d, Some e) => (length d < n)%nat /\
        (exists m', lw_at LL src' (o + length d) m' /\ (m' <= m)%nat /\ (lw_clean LL src -> lw_clean LL src')) /\
        (d = slice D o n /\ e = tm \/ ~ lw_clean LL src /\ e <> EEof)
    | Hang => (fuel <= m)%nat
    | _ => False
    end.
  Proof.
    induction fuel as [|f IH]; intros n src o m src' u r Hat.
    - destruct n as [|n]; cbn [read_full]; injection 1 as <- <- <-; [|lia].
      rewrite slice_0, Nat.add_0_r. splits; auto. exists m. auto.
    - destruct n as [|n]; cbn [read_full].
      { injection 1 as <- <- <-. rewrite slice_0, Nat.add_0_r. splits; auto. exists m. auto. }
      set (n1 := Datatypes.S n).
      destruct (s_read S drop_cb src tt n1) as [[src1 u1] rr] eqn:Hr.
      destruct (drop_read src o m n1 src1 u1 rr Hat ltac:(lia) Hr) as (d & e & -> & Hdn & Hd & (m1 & Hat1 & Hm1 & Hm1') & Hc1 & He).
      destruct (n1 <=? length d)%nat eqn:Hle.
      { apply Nat.leb_le in Hle. assert (Hln : length d = n1) by lia. injection 1 as <- <- <-.
        rewrite <- Hln. splits; auto. eauto. }
      apply Nat.leb_gt in Hle. destruct e as [e|].
      { injection 1 as <- <- <-. splits; auto; [eauto|]. destruct He as [[He1 He2]|He]; [left|right; exact He].
        split; [|exact He2]. rewrite Hd at 1. rewrite (slice_over D o n1) by lia. rewrite (slice_over D o (length d)) by lia. reflexivity. }
      specialize (Hm1' eq_refl). destruct u1.
      destruct (read_full S drop_cb f src1 tt (n1 - length d)) as [[src2 u2] r2] eqn:Hrec.
      specialize (IH _ _ _ _ _ _ _ Hat1 Hrec).
      assert (Hsl : slice D o n1 = d ++ slice D (o + length d) (n1 - length d)).
      { replace n1 with (length d + (n1 - length d))%nat at 1 by lia. rewrite slice_app, <- Hd. reflexivity. }
      destruct r2 as [[d2 e2]|e2| |]; try contradiction.
      + injection 1 as <- <- <-. destruct e2 as [e2|].
        * destruct IH as (I1 & (m2 & I2 & I3 & I4) & I5). rewrite app_length. splits.
          -- lia.
          -- exists m2. rewrite Nat.add_assoc. splits; auto. lia.
          -- destruct I5 as [[I5 I6]|[I5 I6]]; [left|right].
             ++ split; [|exact I6]. rewrite Hsl, <- I5. reflexivity.
             ++ split; [|exact I6]. auto.
        * destruct IH as (I1 & I2 & m2 & I3 & I4 & I5). rewrite Hsl, I1, app_length. splits; auto.
          -- rewrite <- I1, I2. lia.
          -- exists m2. replace (o + n1)%nat with (o + length d + (n1 - length d))%nat by lia. splits; auto. lia.
      + injection 1 as <- <- <-. lia.
  Qed.

  Context (F : tfmt).

  Lemma slice_end (n o : nat) : (length (slice D o n) < n)%nat -> (o <= length D)%nat -> (o + length (slice D o n) = length D)%nat.
  Proof. unfold slice. rewrite firstn_length, skipn_length. lia. Qed.

  Lemma parse_ok : forall N fuel src off st o m src' off' r,
    lw_at LL src o m -> off = Z.of_nat o -> tar_parse F S fuel src off st = (src', off', r) ->
    forall hr q, tparse F D tm N o st = (Some hr, q) ->
    match r with
    | Ok h => hr = inl h /\ off' = Z.of_nat q /\ exists m', lw_at LL src' q m' /\ (m' <= m)%nat /\ (lw_clean LL src -> lw_clean LL src')
    | Err e => hr = inr e \/ ~ lw_clean LL src /\ e <> EEof
    | Panic => False
    | Hang => (fuel <= m + N)%nat
    end.
  Proof.
    induction N as [|N IH]; intros fuel src off st o m src' off' r Hat Hoff Hp hr q; cbn [tparse]; [discriminate|].
    destruct fuel as [|f]; cbn [tar_parse] in Hp.
    { injection Hp as <- <- <-. intros _. lia. }
    destruct (tf_step F st) as [n k|h|e] eqn:Hst.
    - destruct (read_full S drop_cb (Datatypes.S f) src tt n) as [[src1 u1] r1] eqn:Hr.
      pose proof (read_full_ok _ _ _ _ _ _ _ _ Hat Hr) as HR.
      destruct (lw_at_len _ _ _ LL _ _ _ Hat) as [Hol _].
      destruct r1 as [[d [e|]]|e| |]; try contradiction.
      + destruct HR as (H1 & (m1 & H2 & H3 & H4) & H5).
        destruct H5 as [[H5 H6]|[H5 H6]].
        * subst e. rewrite H5 in H1.
          rewrite (proj2 (Nat.eqb_neq _ _)) by lia. cbn [orb].
          destruct (gerr_eqb tm EEof) eqn:Htm.
          -- apply gerr_eqb_eq in Htm. rewrite Htm in Hp. rewrite <- H5.
             intros Hq. specialize (IH f src1 (off + zlen d) (k d) (o + length d)%nat m1 src' off' r H2 ltac:(unfold zlen; lia) Hp hr q Hq).
             destruct r as [h|e| |]; try contradiction; [|destruct IH as [|[I1 I2]]; [left; assumption|right; split; [tauto|exact I2]]|lia].
             destruct IH as (I1 & I2 & m2 & I3 & I4 & I5). splits; auto. exists m2. splits; auto. lia.
          -- assert (Hx : r = Err tm). { destruct tm; try (injection Hp as _ _ <-; reflexivity). discriminate. }
             intros [= <- <-]. rewrite Hx. auto.
        * assert (Hx : r = Err e). { destruct e; try (injection Hp as _ _ <-; reflexivity). congruence. }
          intros _. rewrite Hx. right. auto.
      + destruct HR as (H1 & H2 & m1 & H3 & H4 & H5). rewrite <- H1, H2, Nat.eqb_refl. cbn [orb].
        intros Hq. specialize (IH f src1 (off + zlen d) (k d) (o + n)%nat m1 src' off' r H3 ltac:(unfold zlen; lia) Hp hr q Hq).
        destruct r as [h|e| |]; try contradiction; [|destruct IH as [|[I1 I2]]; [left; assumption|right; split; [tauto|exact I2]]|lia].
        destruct IH as (I1 & I2 & m2 & I3 & I4 & I5). splits; auto. exists m2. splits; auto. lia.
      + injection Hp as <- <- <-. intros _. lia.
    - injection Hp as <- <- <-. intros [= <- <-]. splits; auto. exists m. auto.
    - injection Hp as <- <- <-. intros [= <- <-]. auto.
  Qed.


  (** ** While no save is requested, Next does not request one *)
  Lemma read_full_quiet : forall fuel n src o m src' u d e,
    lw_at LL src o m -> lw_quiet LL src -> read_full S drop_cb fuel src tt n = (src', u, Ok (d, e)) -> lw_quiet LL src'.
  Proof.
    induction fuel as [|f IH]; intros n src o m src' u d e Hat Hq; destruct n as [|n]; cbn [read_full]; try (injection 1 as <- <- <- <-; exact Hq); [discriminate|].
    destruct (s_read S drop_cb src tt (Datatypes.S n)) as [[src1 u1] rr] eqn:Hr.
    destruct (lw_read _ _ _ LL _ _ _ _ _ _ _ _ _ _ Hat (Nat.lt_0_succ n) Hr) as (evs & _ & _ & _ & Hres).
    destruct rr as [d1 e1| |]; try discriminate.
    destruct Hres as (_ & _ & (m1 & Hat1 & _) & Hq1 & _). specialize (Hq1 Hq).
    destruct (Datatypes.S n <=? length d1)%nat; [injection 1 as <- <- <- <-; exact Hq1|].
    destruct e1 as [e1|]; [injection 1 as <- <- <- <-; exact Hq1|]. destruct u1.
    destruct (read_full S drop_cb f src1 tt (Datatypes.S n - length d1)) as [[src2 u2] r2] eqn:Hrec.
    destruct r2 as [[d2 e2]|e2| |]; try discriminate. injection 1 as <- <- <- <-.
    exact (IH _ _ _ _ _ _ _ _ Hat1 Hq1 Hrec).
  Qed.

  Lemma parse_quiet : forall fuel src off st o m src' off' h,
    lw_at LL src o m -> lw_quiet LL src -> tar_parse F S fuel src off st = (src', off', Ok h) -> lw_quiet LL src'.
  Proof.
    induction fuel as [|f IH]; intros src off st o m src' off' h Hat Hq; cbn [tar_parse]; [discriminate|].
    destruct (tf_step F st) as [n k|h0|e]; [|injection 1 as <- _ _; exact Hq|discriminate].
    destruct (read_full S drop_cb (Datatypes.S f) src tt n) as [[src1 u1] r1] eqn:Hr.
    pose proof (read_full_ok _ _ _ _ _ _ _ _ Hat Hr) as HR.
    destruct r1 as [[d [e|]]|e| |]; try contradiction; try discriminate.
    - pose proof (read_full_quiet _ _ _ _ _ _ _ _ _ Hat Hq Hr) as Hq1.
      destruct HR as (_ & (m1 & Hat1 & _) & _). destruct e; try discriminate. exact (IH _ _ _ _ _ _ _ _ Hat1 Hq1).
    - pose proof (read_full_quiet _ _ _ _ _ _ _ _ _ Hat Hq Hr) as Hq1.
      destruct HR as (_ & _ & m1 & Hat1 & _). exact (IH _ _ _ _ _ _ _ _ Hat1 Hq1).
  Qed.

  Lemma next_quiet fuel src o m s src' s' h :
    lw_at LL src o m -> lw_quiet LL src -> sr_next F S fuel src s = (src', s', Ok h) -> lw_quiet LL src'.
  Proof.
    intros Hat Hq. unfold sr_next.
    destruct (read_full S drop_cb fuel src tt (sr_nb s)) as [[src1 u1] r1] eqn:Hr.
    destruct r1 as [[d [e|]]|e| |]; try discriminate.
    pose proof (read_full_quiet _ _ _ _ _ _ _ _ _ Hat Hq Hr) as Hq1.
    pose proof (read_full_ok _ _ _ _ _ _ _ _ Hat Hr) as (_ & _ & m1 & Hat1 & _).
    destruct (tar_parse F S fuel src1 _ _) as [[src2 off] [h2|e2| |]] eqn:Hp; try discriminate.
    injection 1 as <- _ _. exact (parse_quiet _ _ _ _ _ _ _ _ _ Hat1 Hq1 Hp).
  Qed.

  Lemma tparse_mono : forall n p st r q, tparse F D tm n p st = (r, q) -> (p <= q)%nat.
  Proof.
    induction n as [|n IH]; intros p st r q; cbn [tparse]; [injection 1 as _ <-; lia|].
    destruct (tf_step F st) as [w k|h|e]; try (injection 1 as _ <-; lia).
    destruct (_ || _)%bool; [|injection 1 as _ <-; lia]. intros H. specialize (IH _ _ _ _ H). lia.
  Qed.

  Context (N : nat) (ok : bool).
  (** the members that follow, when [nb] bytes of data and [pad] bytes of padding are left at position [o] *)
  Definition tafter (o nb pad : nat) (rest : list tmember) : Prop :=
    (o + nb <= length D)%nat /\ tlayout F D tm N (o + nb) pad rest ok \/
    (length D < o + nb)%nat /\ rest = [] /\ ok = false.

  Lemma next_ok fuel src o m nb pad rest src' s' r :
    lw_at LL src o m -> tafter o nb pad rest -> sr_next F S fuel src (MkSr (Z.of_nat o) nb pad) = (src', s', r) ->
    match r with
    | Ok h => exists q m' rest', rest = MkTm h q (slice D q (th_nb h)) :: rest' /\ s' = MkSr (Z.of_nat q) (th_nb h) (th_pad h) /\
        lw_at LL src' q m' /\ (m' <= m)%nat /\ (lw_clean LL src -> lw_clean LL src') /\ tafter q (th_nb h) (th_pad h) rest'
    | Err e => (rest = [] /\ (e = EEof <-> ok = true)) \/ ~ lw_clean LL src /\ e <> EEof
    | Panic => False
    | Hang => (fuel <= m + N)%nat
    end.
  Proof.
    intros Hat Haf. unfold sr_next. cbn [sr_nb sr_off sr_pad].
    destruct (read_full S drop_cb fuel src tt nb) as [[src1 u1] r1] eqn:Hr.
    pose proof (read_full_ok _ _ _ _ _ _ _ _ Hat Hr) as HR.
    destruct (lw_at_len _ _ _ LL _ _ _ Hat) as [Hol _].
    destruct r1 as [[d [e|]]|e| |]; try contradiction.
    - destruct HR as (H1 & _ & H5). injection 1 as <- <- <-.
      destruct H5 as [[H5 ->]|[H5 H6]].
      + left. pose proof (slice_end nb o) as Hs. rewrite <- H5 in Hs. specialize (Hs H1 Hol).
        destruct Haf as [[Ha _]|(Ha & -> & ->)]; [lia|]. split; [reflexivity|].
        pose proof (lw_tm _ _ _ LL). destruct tm; split; congruence.
      + right. split; [exact H5|]. destruct e; congruence.
    - destruct HR as (H1 & H2 & m1 & H3 & H4 & H5).
      destruct (lw_at_len _ _ _ LL _ _ _ H3) as [Hol1 _].
      destruct Haf as [[Ha Hl]|(Ha & _)]; [|lia].
      destruct (tar_parse F S fuel src1 (Z.of_nat o + zlen d) (tf_init F pad)) as [[src2 off] r2] eqn:Hp.
      assert (Hoff : Z.of_nat o + zlen d = Z.of_nat (o + nb)) by (unfold zlen; lia).
      pose proof (parse_ok N _ _ _ _ _ _ _ _ _ H3 Hoff Hp) as HP.
      inversion Hl as [p pd q Hq|p pd e q Hq Hne|p pd h q ms' ok' Hq Hin Hrest|p pd h q Hq Hin]; subst; specialize (HP _ _ Hq).
      + destruct r2 as [h|e| |]; injection 1 as <- <- <-; try contradiction.
        * destruct HP; discriminate.
        * destruct HP as [HP|[HP1 HP2]]; [left|right].
          -- injection HP as <-. tauto.
          -- split; [|exact HP2]. auto.
        * lia.
      + destruct r2 as [h|e2| |]; injection 1 as <- <- <-; try contradiction.
        * destruct HP; discriminate.
        * destruct HP as [HP|[HP1 HP2]]; [left|right].
          -- injection HP as <-. split; [reflexivity|]. split; [congruence|discriminate].
          -- split; [|exact HP2]. auto.
        * lia.
      + destruct r2 as [h2|e2| |]; injection 1 as <- <- <-; try contradiction.
        * destruct HP as (HP1 & -> & m2 & P1 & P2 & P3). injection HP1 as <-.
          exists q, m2, ms'. splits; auto; [lia|]. left. auto.
        * destruct HP as [HP|[HP1 HP2]]; [discriminate|right]. split; [|exact HP2]. auto.
        * lia.
      + destruct r2 as [h2|e2| |]; injection 1 as <- <- <-; try contradiction.
        * destruct HP as (HP1 & -> & m2 & P1 & P2 & P3). injection HP1 as <-.
          exists q, m2, []. splits; auto; [lia|]. right. auto.
        * destruct HP as [HP|[HP1 HP2]]; [discriminate|right]. split; [|exact HP2]. auto.
        * lia.
    - injection 1 as <- <- <-. lia.
  Qed.

  Lemma after_pos o nb pad m rest : tafter o nb pad (m :: rest) -> (o <= tm_pos m)%nat.
  Proof.
    intros [[_ Hl]|(_ & Hl & _)]; [|discriminate].
    inversion Hl; subst; cbn [tm_pos]; match goal with H : tparse _ _ _ _ _ _ = _ |- _ => apply tparse_mono in H; lia end.
  Qed.

  (** what follows the i-th member *)
  Lemma layout_nth : forall ms p pad i m, tlayout F D tm N p pad ms ok -> nth_error ms i = Some m ->
    tm_data m = slice D (tm_pos m) (th_nb (tm_hdr m)) /\
    tafter (tm_pos m) (th_nb (tm_hdr m)) (th_pad (tm_hdr m)) (skipn (Datatypes.S i) ms).
  Proof.
    intros ms p pad i m Hl. revert i. unfold tafter.
    induction Hl as [p pd q Hq|p pd e q Hq Hne|p pd h q ms ok' Hq Hin Hrest IH|p pd h q Hq Hin]; intros i Hi;
      try (destruct i; discriminate).
    - destruct i as [|i]; [injection Hi as <-; cbn; auto|]. apply (IH i Hi).
    - destruct i as [|i]; [injection Hi as <-; cbn; auto|destruct i; discriminate].
  Qed.
End Read.
