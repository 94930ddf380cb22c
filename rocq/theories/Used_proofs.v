(** Used_proofs.v -- tar extractions whose source is used for several runs. *)
From Verif Require Import Base Base_proofs Source Contract Seek Decomp CodecSpec Drive SpoilSpec Stack_proofs Copier Sink SinkSpec Settle_proofs
  Zip ZipSpec Zip_proofs Zip2_proofs Order_proofs Tar TarSpec TarRead_proofs Tar_proofs Tar2_proofs Used UsedSpec.
From Coq Require Import Sorted.

Lemma calls_calm {CK K} (cb : callback CK K) evs : forall u u', calm cb -> calls cb u evs u' -> forall c, ~ In (c, CPanic) evs.
Proof.
  induction evs as [|[c r] evs IH]; intros u u' Hc; cbn [calls]; [intros _ c []|].
  intros (k1 & Hcb & H) c' [Hi|Hi]; [|exact (IH _ _ Hc H _ Hi)]. injection Hi as <- ->. apply (Hc c u). rewrite Hcb. reflexivity.
Qed.

(** ** The source stays usable *)
Section Keeps.
  Context (S : source) (D : bytes) (tm : gerr) (LL : laws S D tm) (cl : Prop).
  Context (F : tfmt) (SK : sink) (SV : saver (s_ck S) tstate).

  Definition usable (src : s_st S) : Prop := (exists o m, lw_at LL src o m) /\ (cl -> lw_clean LL src).

  Lemma usable_setssc src : usable src -> usable (s_setssc S src).
  Proof.
    intros [(o & m & H) Hc]. destruct (lw_setssc _ _ _ LL _ (lw_at_wf _ _ _ LL _ _ _ H)) as (_ & T2 & _ & T4).
    split; [exists o, m; auto|auto].
  Qed.
  Lemma usable_want src : usable src -> usable (s_want S src).
  Proof. intros [(o & m & H) Hc]. destruct (lw_want _ _ _ LL _ _ _ H). split; [exists o, m; auto|auto]. Qed.

  Lemma usable_read {K} (cb : callback (s_ck S) K) src u n src' u' r : calm cb -> usable src -> (0 < n)%nat ->
    s_read S cb src u n = (src', u', r) -> usable src' /\ exists d e, r = RRet d e.
  Proof.
    intros Hc [(o & m & H) Hcl] Hn Hr. destruct (lw_read _ _ _ LL _ _ _ _ _ _ _ _ _ _ H Hn Hr) as (evs & Hcalls & _ & _ & Hres).
    destruct r as [d e| |].
    - destruct Hres as (_ & _ & (m' & H1 & _) & _ & H2 & _). split; [split; eauto|eauto].
    - destruct Hres as (c & Hi). destruct (calls_calm cb evs _ _ Hc Hcalls c Hi).
    - destruct Hres.
  Qed.

  Lemma calm_drop {CK} : calm (@drop_cb CK).
  Proof. intros c u. discriminate. Qed.
  Lemma calm_on_save prog s : calm (tar_on_save SK S SV prog s).
  Proof. intros c x. unfold tar_on_save. cbv zeta. destruct (sv_save SV _ _) as [v' [[|]|e]]; discriminate. Qed.

  Lemma usable_full : forall fuel src n src' u r, usable src -> read_full S drop_cb fuel src tt n = (src', u, r) -> usable src'.
  Proof.
    induction fuel as [|f IH]; intros src [|n] src' u r Hu; cbn [read_full]; try (injection 1 as <- <- <-; exact Hu).
    destruct (s_read S drop_cb src tt (Datatypes.S n)) as [[src1 []] rr] eqn:Hr.
    destruct (usable_read drop_cb _ _ _ _ _ _ calm_drop Hu (Nat.lt_0_succ n) Hr) as (H1 & d & e & ->).
    destruct (Datatypes.S n <=? length d)%nat; [injection 1 as <- <- <-; exact H1|].
    destruct e as [e|]; [injection 1 as <- <- <-; exact H1|].
    destruct (read_full S drop_cb f src1 tt (Datatypes.S n - length d)) as [[src2 u2] r2] eqn:Hf.
    pose proof (IH _ _ _ _ _ H1 Hf) as H2. destruct r2 as [[d2 e2]| | |]; injection 1 as <- <- <-; exact H2.
  Qed.
  Lemma usable_parse : forall fuel src off st src' off' r, usable src -> tar_parse F S fuel src off st = (src', off', r) -> usable src'.
  Proof.
    induction fuel as [|f IH]; intros src off st src' off' r Hu; cbn [tar_parse]; [injection 1 as <- <- <-; exact Hu|].
    destruct (tf_step F st) as [n kk|h|e]; try (injection 1 as <- <- <-; exact Hu).
    destruct (read_full S drop_cb (Datatypes.S f) src tt n) as [[src1 u1] r1] eqn:Hf.
    pose proof (usable_full _ _ _ _ _ _ Hu Hf) as H1.
    destruct r1 as [[d [[]|]]| | |]; try (injection 1 as <- <- <-; exact H1); apply IH; exact H1.
  Qed.
  Lemma usable_next fuel src s src' s' r : usable src -> sr_next F S fuel src s = (src', s', r) -> usable src'.
  Proof.
    intros Hu. unfold sr_next. destruct (read_full S drop_cb fuel src tt (sr_nb s)) as [[src1 u1] r1] eqn:Hf.
    pose proof (usable_full _ _ _ _ _ _ Hu Hf) as H1.
    destruct r1 as [[d [e|]]| | |]; try (injection 1 as <- <- <-; exact H1).
    destruct (tar_parse F S fuel src1 _ _) as [[src2 off2] r2] eqn:Hp. pose proof (usable_parse _ _ _ _ _ _ _ H1 Hp) as H2.
    destruct r2; injection 1 as <- <- <-; exact H2.
  Qed.

  Lemma usable_copy w fuel src s x : usable src ->
    usable (fst (fst (fst (copier_do (tar_cenv SK F S SV w) fuel (src, s, x))))).
  Proof.
    intros Hu. unfold copier_do. apply (copy_loop_keeps _ (fun X => usable (fst (fst X)))); auto.
    - intros [[src1 s1] x1] n Hx. cbn [ce_read tar_cenv fst snd] in *. unfold sr_read.
      destruct (Nat.min n (sr_nb s1)) as [|n'] eqn:Hn; [exact Hx|].
      destruct (s_read S _ src1 x1 (Datatypes.S n')) as [[src2 x2] rr] eqn:Hr.
      destruct (usable_read _ _ _ _ _ _ _ (calm_on_save _ _) Hx (Nat.lt_0_succ n') Hr) as (H1 & d & e & ->). exact H1.
    - intros [[src1 s1] x1] d Hx. cbn [ce_write tar_cenv fst snd] in *. destruct (k_write SK _ w d) as [t [[n adv] e]]. exact Hx.
    - intros [[src1 s1] x1] n Hx. cbn [ce_should tar_cenv fst snd] in *. destruct (sv_should SV _ n). exact Hx.
    - intros [[src1 s1] x1] Hx. cbn [ce_want tar_cenv fst snd] in *. apply usable_want. exact Hx.
    - intros [[src1 s1] x1] Hx. exact Hx.
  Qed.

  Lemma usable_extract fuel src s e x src' s' x' r : usable src -> tar_extract SK F S SV fuel src s e x = (src', s', x', r) -> usable src'.
  Proof.
    intros Hu. unfold tar_extract. destruct (en_kind e).
    - destruct (k_mkdir SK _ e) as [st' [e'|]]; injection 1 as <- <- <- <-; exact Hu.
    - destruct (k_symlink SK _ e _) as [st' [e'|]]; injection 1 as <- <- <- <-; exact Hu.
    - destruct (k_getw SK _ e) as [st' [w|e'| |]]; try (injection 1 as <- <- <- <-; exact Hu).
      pose proof (usable_copy w fuel src s (tx_sink SK S SV x st') Hu) as Hc.
      destruct (copier_do (tar_cenv SK F S SV w) fuel (src, s, tx_sink SK S SV x st')) as [[[src2 s2] x2] r2]. cbn [fst] in Hc. cbv zeta.
      destruct r2; injection 1 as <- <- <- <-; exact Hc.
    - injection 1 as <- <- <- <-; exact Hu.
  Qed.
  Lemma usable_iter fuel src s i x src' s' x' r : usable src -> tar_iter SK F S SV fuel src s i x = (src', s', x', r) -> usable src'.
  Proof.
    intros Hu. unfold tar_iter. cbv zeta. cbn [ec_entry]. destruct (ec_entry (t_ck SK S SV x)); [apply usable_extract; exact Hu|].
    destruct (sr_next F S fuel src s) as [[src1 s1] r1] eqn:Hn. pose proof (usable_next _ _ _ _ _ _ Hu Hn) as H1.
    destruct r1 as [h|[]| |]; try (injection 1 as <- <- <- <-; exact H1).
    destruct (tar_entry_of h); [apply usable_extract; exact H1|injection 1 as <- <- <- <-; exact H1].
  Qed.
  Lemma usable_loop fuel : forall lf src s i x live, usable src -> usable (fst (fst (fst (tar_loop2 SK F S SV fuel lf src s i x live)))).
  Proof.
    induction lf as [|lf IH]; intros src s i x live Hu; cbn [tar_loop2]; destruct (t_stoperr SK S SV x); try exact Hu.
    destruct (tar_iter SK F S SV fuel src s i x) as [[[src1 s1] x1] r1] eqn:Hi. pose proof (usable_iter _ _ _ _ _ _ _ _ _ Hu Hi) as H1.
    destruct r1; try exact H1. apply IH. exact H1.
  Qed.
  Lemma usable_run fuel src s ck ts keep st v l : usable src ->
    snd (tar_run2 SK F S SV fuel src s ck ts keep st v) = Some l -> usable (tl_src SK S SV l).
  Proof.
    intros Hu. unfold tar_run2.
    pose proof (usable_loop fuel fuel (s_setssc S src) s (ec_index ck) (MkTx SK S SV st ck ts v false None [] []) false (usable_setssc _ Hu)) as H.
    destruct (tar_loop2 _ _ _ _ _ _ _ _ _ _ _) as [[[src1 s1] lv] [x r]]. cbn [fst snd] in *.
    destruct r; try discriminate; intros [= <-]; exact H.
  Qed.

  Lemma usable_discard {K} (cb : callback (s_ck S) K) : calm cb -> forall fuel src u delta src' u' r, usable src ->
    discard_by_read S cb fuel src u delta = (src', u', r) -> usable src'.
  Proof.
    intros Hcb. induction fuel as [|f IH]; intros src u delta src' u' r Hu; cbn [discard_by_read]; destruct (delta <=? 0) eqn:Hd;
      try (injection 1 as <- <- <-; exact Hu).
    destruct (s_read S cb src u _) as [[src1 u1] rr] eqn:Hr.
    assert (Hn : (0 < Z.to_nat (Z.min delta discard_buf))%nat) by (unfold discard_buf; lia).
    destruct (usable_read cb _ _ _ _ _ _ Hcb Hu Hn Hr) as (H1 & d & e & ->).
    destruct e; [injection 1 as <- <- <-; exact H1|]. apply IH. exact H1.
  Qed.
  (** where DiscardByRead ends *)
  Lemma discard_at {K} (cb : callback (s_ck S) K) : calm cb -> forall fuel src u delta o m src' u' r, lw_at LL src o m ->
    discard_by_read S cb fuel src u delta = (src', u', r) ->
    match r with Ok _ => exists m', lw_at LL src' (o + Z.to_nat delta) m' | Panic => False | _ => True end.
  Proof.
    intros Hcb. induction fuel as [|f IH]; intros src u delta o m src' u' r Hat; cbn [discard_by_read]; destruct (delta <=? 0) eqn:Hd;
      try (injection 1 as <- <- <-; auto; exists m; replace (o + Z.to_nat delta)%nat with o by lia; exact Hat).
    destruct (s_read S cb src u _) as [[src1 u1] rr] eqn:Hr.
    assert (Hn : (0 < Z.to_nat (Z.min delta discard_buf))%nat) by (unfold discard_buf; lia).
    destruct (lw_read _ _ _ LL _ _ _ _ _ _ _ _ _ _ Hat Hn Hr) as (evs & Hcalls & _ & _ & Hres).
    destruct rr as [d e| |].
    - destruct Hres as (H0 & _ & (m' & H1 & _) & _).
      destruct e; [injection 1 as <- <- <-; exact Logic.I|]. intros H. specialize (IH _ _ _ _ _ _ _ _ H1 H).
      destruct r; auto. destruct IH as (m2 & IH). exists m2.
      replace (o + Z.to_nat delta)%nat with (o + length d + Z.to_nat (delta - zlen d))%nat; [exact IH|].
      unfold zlen, discard_buf in *. lia.
    - destruct Hres as (c & Hi). destruct (calls_calm cb evs _ _ Hcb Hcalls c Hi).
    - destruct Hres.
  Qed.
End Keeps.

(** ** Resume *)
Section Resume.
  Context (S : source) (D : bytes) (tm : gerr) (LL : laws S D tm).
  Context (F : tfmt) (N : nat) (ok : bool) (ms : list tmember).
  Context (SK : sink) (L : sink_laws SK) (SV : saver (s_ck S) tstate).
  Context (view0 : kl_loc L -> option node).
  Hypothesis Hvalid : storable L (titems ms).
  Hypothesis Hlay : tlayout F D tm N 0 0 ms ok.
  Hypothesis Hlate : lw_late LL = false.
  Notation nosp := (fun _ _ : sckpt (s_ck S) => False).
  Notation RO := (RO S D tm LL nosp ok ms SK L SV view0).
  Notation rlive := (rlive S D tm LL N ok ms SK L SV).
  Notation rgoes := (rgoes S SK L SV).
  Notation tgood := (tgood S D tm LL nosp ms SK L view0).
  Notation csorted := (csorted S ms).
  Notation usable cl := (usable S D tm LL cl).

  Lemma sq_any src o : sq S D tm LL (-1) src o.
  Proof. split; [lia|right; lia]. Qed.

  Lemma used_fresh {O} (old : callback (s_ck S) (sv_st SV * O)) o c src fuel st v out l :
    tar_point S c = None -> lw_wf LL src -> kl_inv L st -> outside L (titems ms) view0 st ->
    (out, l) = tar_resume2 SK F S SV old o src fuel c st v ->
    RO [] (-1) out /\ (rlive src st fuel -> rgoes out) /\ forall l0, l = Some l0 -> usable (lw_clean LL src) (tl_src SK S SV l0).
  Proof.
    intros Hpt Hwf Hi Ho. unfold tar_resume2. rewrite Hpt.
    destruct (s_resume S src None) as [src1 r1] eqn:Hres.
    assert (Hno : forall x : sckpt (s_ck S), None = Some x -> lw_ck LL x) by discriminate.
    pose proof (lw_resume _ _ _ LL _ _ _ _ Hwf Hno Hres) as HR.
    destruct r1 as [z|e| |]; try contradiction.
    - destruct HR as (-> & mm & Hat & _ & Hcl). change (Z.to_nat 0) with 0%nat in Hat.
      destruct (lw_setssc _ _ _ LL _ (lw_at_wf _ _ _ LL _ _ _ Hat)) as (_ & T2 & T3 & T4). specialize (T2 _ _ Hat).
      intros Hout. assert (Hout1 := f_equal fst Hout). assert (Hout2 := f_equal snd Hout). cbn [fst snd] in Hout1, Hout2.
      rewrite tar_run2_run in Hout1. rewrite Hout1. clear Hout Hout1.
      edestruct (run_ok S D tm LL nosp F N ok ms SK L SV view0 [] (-1) Hvalid Hlay Hlate fuel 0 src1 (MkSr 0 0 0) (MkEck None 0 None (Some 0%Q) None) (MkTs (Some []) None) (fun _ => c) st v mm) as [R1 R2].
      + left. split; auto.
        * exists 0%nat, 0%nat, 0%nat. splits; auto; [apply sq_any|]. left. split; [cbn; lia|exact Hlay].
        * split; cbn; auto; try constructor; try discriminate.
          -- intros; lia.
          -- split; [intros; lia|exact Ho].
          -- apply part_0. exact view0.
      + reflexivity.
      + congruence.
      + split; [exact R1|]. split; [intros (K1 & K2); apply R2; split; auto|].
        intros l0 ->. eapply usable_run; [|symmetry; exact Hout2]. split; eauto.
    - injection 1 as -> ->. split; [|split; [|discriminate]].
      + split; cbn; auto; try constructor; try congruence.
      + intros (K1 & K2 & K3 & K4 & _). destruct HR as [HR|[_ HR]]; tauto.
  Qed.

  Lemma used_at {O} (old : callback (s_ck S) (sv_st SV * O)) o c earlier src fuel st v out l :
    calm old -> lw_wf LL src -> kl_inv L st -> outside L (titems ms) view0 st ->
    Forall (tgood st) (c :: earlier) -> csorted (c :: earlier) ->
    (out, l) = tar_resume2 SK F S SV old o src fuel (Some c) st v ->
    RO (c :: earlier) (-1) out /\ (rlive src st fuel -> (forall sc u, snd (old sc u) = COk) -> rgoes out) /\
    forall l0, l = Some l0 -> usable (lw_clean LL src) (tl_src SK S SV l0).
  Proof.
    intros Hcalm Hwf Hi Ho Hg Hso. inversion Hg as [|c0 e0 Hgc Hge]; subst c0 e0.
    inversion Hso as [|c0 e0 Hs1 Hs2]; subst c0 e0.
    pose proof Hgc as ((i & m & e & o0 & Hm & Hreg & He & Hol & Hidx & Hent & Hsv) & Hset & Hpart).
    pose proof Hsv as (Hdata & Hnb & sc0 & Hsc1 & Hsc2 & Hsc3).
    assert (Hck : forall x, ec_src c = Some x -> lw_ck LL x).
    { intros x Hx. destruct (Hsc3 x Hx) as [-> | []]. exact Hsc1. }
    assert (Hps : cpos S ms c = (jx ms i, W SK L e o0)).
    { unfold cpos, tck_woff. rewrite Hidx, Hent, Nat2Z.id. cbn. rewrite Nat2Z.id. reflexivity. }
    unfold tar_resume2. unfold tar_point. rewrite Hdata.
    set (ts := MkTs (Some (tfiles L (firstn i ms))) (Some (sr_in m o0))).
    destruct (s_resume S src (ec_src c)) as [src1 r1] eqn:Hres.
    pose proof (lw_resume _ _ _ LL _ _ _ _ Hwf Hck Hres) as HR.
    assert (Hfail : forall v0 r0, r0 <> Panic -> (forall l, r0 <> Ok l) -> RO (c :: earlier) (-1) (MkTout SK S SV st v0 (Some c) [] [] r0 (Some c))).
    { intros v0 r0 H1 H2. split; cbn; auto; try apply Forall_nil.
      - intros _ c' [= <-]. right. exists i, m, e, o0, o0. splits; auto.
        intros _. split; [exact Hgc|]. constructor; [apply ple_refl|exact Hs2].
      - destruct r0; auto; exfalso; eapply H2; reflexivity.
      - intros _ c' [= <-]. right. exists i, m, e, o0, o0. splits; auto.
        intros _. split; [exact Hgc|]. constructor; [apply ple_refl|exact Hs2]. }
    destruct r1 as [z|er| |]; try contradiction.
    - destruct HR as (Hz & m1 & Hat1 & _ & Hcl1). cbn [sr_off sr_in].
      pose proof (lw_ck_len _ _ _ LL _ Hsc1) as Hlen.
      assert (Hz0 : 0 <= z <= Z.of_nat (tm_pos m + o0)).
      { rewrite Hz. destruct (ec_src c) as [x|] eqn:Hx; [|lia]. destruct (Hsc3 x eq_refl) as [-> | []]. lia. }
      destruct (if z <? Z.of_nat (tm_pos m + o0) then discard_by_read S old fuel src1 (v, o) (Z.of_nat (tm_pos m + o0) - z) else (src1, (v, o), Ok tt))
        as [[src2 [v2 o2]] r2] eqn:Hdis.
      assert (Hus : usable (lw_clean LL src) src1) by (split; eauto).
      assert (Hd : usable (lw_clean LL src) src2 /\ match r2 with
        | Ok _ => exists mm, lw_at LL src2 (tm_pos m + o0) mm
        | Panic => False
        | _ => ~ (lw_clean LL src1 /\ (lw_bound LL < fuel)%nat /\ (tm_pos m + th_nb (tm_hdr m) <= length D)%nat /\ forall sc u, snd (old sc u) = COk)
        end).
      { destruct (z <? Z.of_nat (tm_pos m + o0)) eqn:Hlt.
        - split; [exact (usable_discard S D tm LL _ old Hcalm _ _ _ _ _ _ _ Hus Hdis)|].
          pose proof (discard_at S D tm LL old Hcalm _ _ _ _ _ _ _ _ _ Hat1 Hdis) as HD.
          assert (Hnt : (lw_clean LL src1 /\ (lw_bound LL < fuel)%nat /\ (tm_pos m + th_nb (tm_hdr m) <= length D)%nat /\ forall sc u, snd (old sc u) = COk) -> exists u, r2 = Ok u).
          { intros (Hc & Hf & Hfull & Hold).
            pose proof (lw_at_len _ _ _ LL _ _ _ Hat1) as [_ Hmb].
            pose proof (discard_ok LL _ old (fun _ => True) fuel src1 _ _ _ _ _ _ _
              (fun c0 k0 k1 rr _ _ Hcb _ => conj (eq_trans (f_equal snd (eq_sym Hcb)) (Hold c0 k0)) Logic.I) Logic.I Hat1 ltac:(lia) Hdis) as (_ & _ & D3).
            destruct r2 as [u|e2| |]; try contradiction; [eauto|]. exfalso.
            destruct D3 as (o3 & m3 & _ & _ & _ & _ & [D3|(_ & _ & D4 & D5)]); [tauto|]. lia. }
          destruct r2 as [u|e2| |]; auto; try (intros Hx; destruct (Hnt Hx); discriminate).
          destruct HD as (m2 & H1). exists m2.
          replace (tm_pos m + o0)%nat with (Z.to_nat z + Z.to_nat (Z.of_nat (tm_pos m + o0) - z))%nat by lia. exact H1.
        - injection Hdis as <- <- <- <-. split; [exact Hus|]. exists m1. replace (tm_pos m + o0)%nat with (Z.to_nat z) by lia. exact Hat1. }
      destruct Hd as [Hus2 Hd].
      assert (Hfull : ok = true -> (tm_pos m + th_nb (tm_hdr m) <= length D)%nat).
      { intros Hok. destruct (after_m D tm F N ok ms Hlay i m Hm) as [[Ha _]|(_ & _ & Ha)]; [exact Ha|congruence]. }
      destruct r2 as [u|e2| |]; try contradiction.
      2,3: intros Hout; injection Hout as -> ->; split; [apply Hfail; discriminate|split];
        [intros (K1 & K2 & K3 & K4 & K5 & K6 & K7) Hold; exfalso; apply Hd; splits; auto; lia|intros l0 Hl0; first [discriminate Hl0|injection Hl0 as <-; exact Hus2]].
      destruct Hd as (mm & Hat).
      destruct (lw_setssc _ _ _ LL _ (lw_at_wf _ _ _ LL _ _ _ Hat)) as (_ & T2 & T3 & T4). specialize (T2 _ _ Hat).
      intros Hout. assert (Hout1 := f_equal fst Hout). assert (Hout2 := f_equal snd Hout). cbn [fst snd] in Hout1, Hout2.
      rewrite tar_run2_run in Hout1. rewrite Hout1. clear Hout Hout1.
      edestruct (run_ok S D tm LL nosp F N ok ms SK L SV view0 (c :: earlier) (-1) Hvalid Hlay Hlate fuel i src2 (sr_in m o0) c ts Some st v2 mm) as [R1 R2].
      + right. exists m, e, o0. splits; auto; [apply sq_any| |].
        * rewrite Hps in Hset, Hpart.
          split; cbn [Tar.t_sink Tar.t_log Tar.t_prog Tar.t_stop Tar.t_stoperr]; auto; try discriminate.
          -- unfold cks. cbn [Tar.t_log map rev app]. constructor.
             ++ split; [exact Hgc|]. rewrite Hps. apply ple_refl.
             ++ rewrite Hps in Hs2. rewrite Forall_forall in *. auto.
        * split; auto. right. exists o0. split; [lia|exact Hsv].
      + exact Hidx.
      + auto.
      + split; [exact R1|]. split.
        * intros (K1 & K2) _. apply R2. destruct Hus2 as [_ Hus2]. split; auto.
        * intros l0 ->. eapply usable_run; [|symmetry; exact Hout2]. exact Hus2.
    - intros Hout. injection Hout as -> ->. split; [apply Hfail; discriminate|]. split; [|discriminate].
      intros (K1 & K2 & K3 & K4 & _) _. destruct HR as [HR|[_ HR]]; tauto.
  Qed.
End Resume.

(** ** Lives *)
Section Lives.
  Context (pol : bool) (data : bytes) (start size : Z) (k : stk) (D : bytes) (tm : gerr) (F : tfmt) (N : nat).
  Context (ms : list tmember) (ok : bool).
  Context {SK : sink} (L : sink_laws SK) (st0 : k_st SK).
  Notation S := (stk_source k).
  Context (LL : laws S D tm).
  Hypothesis Hwf : forall rs, rs_of data rs -> stk_flag pol (rs_separate rs) -> lw_wf LL (stk_new k rs start size).
  Hypothesis Hcn : forall rs, rs_of data rs -> rs_good rs -> lw_clean LL (stk_new k rs start size).
  Hypothesis Hvalid : storable L (titems ms).
  Hypothesis Hlay : tlayout F D tm N 0 0 ms ok.
  Hypothesis Hlate : lw_late LL = false.
  Hypothesis Hinv0 : kl_inv L st0.
  Notation CL := (crash_laws L).
  Notation nosp := (fun _ _ : sckpt (s_ck S) => False).
  Notation tgood := (tgood S D tm LL nosp ms SK L (kl_view L st0)).
  Notation csorted := (csorted S ms).

  Definition src_ok (src : option (s_st S * bool)) : Prop :=
    forall s g, src = Some (s, g) -> lw_wf LL s /\ (g = true -> lw_clean LL s).

  Lemma good_views (st st' : k_st SK) c : (forall l, kl_view L st' l = kl_view L st l) -> tgood st c -> tgood st' c.
  Proof.
    intros Hv (H1 & H2 & H3). split; [exact H1|]. split.
    - eapply settled_views; eauto.
    - intros e D0 l E1 E2 E3 E4. rewrite Hv. exact (H3 e D0 l E1 E2 E3 E4).
  Qed.

  Lemma left_ok {SK' SV} b (l : option (tleft SK' S SV)) src g :
    (g = true -> lw_clean LL src) -> (forall l0, l = Some l0 -> usable S D tm LL (lw_clean LL src) (tl_src SK' S SV l0)) ->
    src_ok (option_map (fun s => (s, g)) (left_over k b l)).
  Proof.
    intros Hg Hl s g'. unfold left_over. destruct b; [discriminate|]. destruct l as [l0|]; [|discriminate].
    intros [= <- <-]. destruct (Hl l0 eq_refl) as [(o & m & H1) H2]. split; [exact (lw_at_wf _ _ _ LL _ _ _ H1)|auto].
  Qed.

  Lemma ulife_good st cks src : ulife pol data start size k F L st0 st cks src ->
    kl_inv L st /\ outside L (titems ms) (kl_view L st0) st /\ Forall (tgood st) cks /\ csorted cks /\ src_ok src.
  Proof.
    induction 1 as [|st st' cks src Hl IH Hi Hv|st cks src rs g Hl IH [Hr1 Hr2] Hg|st cks src g c SV O old o fuel v n out l Hl IH Hnp Hcalm Hout
      |st later c earlier src g SV O old o fuel v n out l Hl IH Hcalm Hout|st later c earlier src Hl IH].
    - splits; auto; try constructor; discriminate.
    - destruct IH as (I1 & I2 & I3 & I4 & I5). splits; auto.
      + intros l H1 H2. rewrite Hv. auto.
      + eapply Forall_impl; [|exact I3]. intros c. apply good_views. exact Hv.
    - destruct IH as (I1 & I2 & I3 & I4 & I5). splits; auto. intros s g' [= <- <-]. split; [exact (Hwf rs Hr1 Hr2)|].
      intros Hx. exact (Hcn rs Hr1 (Hg Hx)).
    - destruct IH as (I1 & I2 & I3 & I4 & I5). destruct (I5 _ _ eq_refl) as [W1 W2].
      destruct (used_fresh S D tm LL F N ok ms (crashing SK) CL SV (kl_view L st0) Hvalid Hlay Hlate old o c src fuel (st, n) v out l
        (no_point_ok k c Hnp) W1 I1 I2 Hout) as ([R1 R2 R3 R4 _ _ _ _ _] & _ & R5).
      rewrite app_nil_r in R3, R4. splits; auto. apply (left_ok _ _ src); auto.
    - destruct IH as (I1 & I2 & I3 & I4 & I5). destruct (I5 _ _ eq_refl) as [W1 W2].
      apply Forall_app in I3. destruct I3 as [_ I3]. pose proof (csorted_skip k ms _ _ _ I4) as I6.
      destruct (used_at S D tm LL F N ok ms (crashing SK) CL SV (kl_view L st0) Hvalid Hlay Hlate old o c earlier src fuel (st, n) v out l
        Hcalm W1 I1 I2 I3 I6 Hout) as ([R1 R2 R3 R4 _ _ _ _ _] & _ & R5).
      splits; auto. apply (left_ok _ _ src); auto.
    - destruct IH as (I1 & I2 & I3 & I4 & I5). set (c' := MkEck None _ _ _ _).
      apply Forall_app in I3. destruct I3 as [I3a I3b].
      assert (Hpos : Tar_proofs.cpos S ms c' = Tar_proofs.cpos S ms c) by reflexivity.
      assert (Hgood : tgood st c').
      { destruct (Forall_inv I3b) as (G1 & G2 & G3). unfold Tar_proofs.tgood. rewrite Hpos. splits; auto.
        destruct G1 as (i & m & e & o & E1 & E2 & E3 & E4 & E5 & E6 & E7 & E8 & sc0 & E9 & E10 & E11).
        exists i, m, e, o. splits; auto. split; [exact E7|]. split; [exact E8|]. exists sc0. splits; auto. discriminate. }
      splits; auto.
      + apply Forall_app. split; [exact I3a|]. constructor; [exact Hgood|exact I3b].
      + clear - I4 Hpos. induction later as [|a l IH]; cbn in *.
        * constructor; [exact I4|]. rewrite Hpos. constructor; [apply ple_refl|]. inversion I4; subst. assumption.
        * inversion I4 as [|? ? J1 J2]; subst. constructor; [apply IH; exact J1|].
          apply Forall_app in J2. destruct J2 as [J2 J3]. apply Forall_app. split; [exact J2|].
          constructor; [|exact J3]. rewrite Hpos. inversion J3; subst. assumption.
  Qed.

  Lemma urun_ok SV g q c fuel st out : urun pol data start size k F L st0 SV g q c fuel st out ->
    exists prior, RO S D tm LL nosp ok ms SK L SV (kl_view L st0) prior (-1) out /\
      (g = true -> q -> kl_clean L st -> saver_goes_on SV -> tm = EEof -> ok = true -> tsound L ms ->
       (lw_bound LL + N + length ms + 2 < fuel)%nat -> exists l, to_res _ _ _ out = Ok l).
  Proof.
    assert (Hcomp : forall src, (g = true -> lw_clean LL src) -> g = true -> kl_clean L st -> saver_goes_on SV -> tm = EEof -> ok = true -> tsound L ms ->
       (lw_bound LL + N + length ms + 2 < fuel)%nat -> rlive S D tm LL N ok ms SK L SV src st fuel).
    { intros src Hs Hg Hc Hsv Ht Hok Hsd Hf. unfold rlive. splits; auto. exact (goes_on_noerr _ Hsv). }
    assert (Hgoes : rgoes S SK L SV out -> saver_goes_on SV -> exists l, to_res _ _ _ out = Ok l).
    { intros [[HG|(HG & _)] _] Hs; [exact HG|contradiction]. }
    destruct 1 as [st cks src g c O old o fuel v out l Hl Hnp Hcalm Hout|st later c earlier src g O old o fuel v out l Hl Hcalm Hout];
      destruct (ulife_good _ _ _ Hl) as (I1 & I2 & I3 & I4 & I5); destruct (I5 _ _ eq_refl) as [W1 W2].
    - exists []. destruct (used_fresh S D tm LL F N ok ms SK L SV (kl_view L st0) Hvalid Hlay Hlate old o c src fuel st v out l
        (no_point_ok k c Hnp) W1 I1 I2 Hout) as (R1 & R2 & _).
      split; [exact R1|]. intros; apply Hgoes; [apply R2; apply Hcomp; auto|assumption].
    - apply Forall_app in I3. destruct I3 as [_ I3]. pose proof (csorted_skip k ms _ _ _ I4) as I6. exists (c :: earlier).
      destruct (used_at S D tm LL F N ok ms SK L SV (kl_view L st0) Hvalid Hlay Hlate old o c earlier src fuel st v out l
        Hcalm W1 I1 I2 I3 I6 Hout) as (R1 & R2 & _).
      split; [exact R1|]. intros; apply Hgoes; [apply R2; [apply Hcomp; auto|assumption]|assumption].
  Qed.
End Lives.
