(** Tar_proofs.v -- invariants of tar extraction. *)
From Verif Require Import Base Base_proofs Source Contract Seek Decomp CodecSpec Drive Copier Sink SinkSpec Settle_proofs
  Zip ZipSpec Zip_proofs Tar TarSpec TarRead_proofs.
From Coq Require Import Sorted.

(** ** Generic facts about steps of a sink *)
Section Steps.
  Context {SK : sink} (L : sink_laws SK) (items : list item).
  Lemma kstep_lower j w w' st st' : (w' <= w)%nat -> kstep L items j w st st' -> kstep L items j w' st st'.
  Proof.
    intros Hw (e & nd & H1 & H2 & H3 & H4 & H5). exists e, nd. splits; auto.
    intros; apply H5; auto; lia.
  Qed.
  Lemma part_lower j w w' st : (w' <= w)%nat -> part L items j w st -> part L items j w' st.
  Proof.
    intros Hw H e D l H1 H2 H3 H4. destruct (H e D l H1 H2 H3 ltac:(lia)) as (c & E1 & E2 & E3).
    exists c. splits; auto; [lia|]. rewrite <- (Nat.min_l w' w) by lia. rewrite <- !firstn_firstn. congruence.
  Qed.
End Steps.

Section TarProofs.
  Context (S : source) (D : bytes) (tm : gerr) (LL : laws S D tm).
  (** what may become of a source checkpoint that lost a part of its content *)
  Context (Sp : sckpt (s_ck S) -> sckpt (s_ck S) -> Prop).
  Context (F : tfmt) (N : nat) (ok : bool) (ms : list tmember).
  Context (SK : sink) (L : sink_laws SK) (SV : saver (s_ck S) tstate).
  Context (view0 : kl_loc L -> option node).
  Notation teck := (teck S).
  Notation tx := (tx SK S SV).
  Notation items := (titems ms).
  Notation settled := (settled L items view0).
  Notation part := (part L items).
  Notation kstep := (kstep L items).
  Notation t_sink := (t_sink SK S SV).
  Notation t_ck := (t_ck SK S SV).
  Notation t_state := (t_state SK S SV).
  Notation t_sv := (t_sv SK S SV).
  Notation t_stop := (t_stop SK S SV).
  Notation t_stoperr := (t_stoperr SK S SV).
  Notation t_prog := (t_prog SK S SV).
  Notation t_log := (t_log SK S SV).
  Notation after := (tafter (D := D) (tm := tm) F N ok).

  (** ** Positions *)
  Definition jx (i : nat) : nat := length (titems (firstn i ms)).

  Lemma firstn_S_nth {A} (l : list A) i a : nth_error l i = Some a -> firstn (Datatypes.S i) l = firstn i l ++ [a].
  Proof.
    revert i. induction l as [|b l IH]; intros [|i] H; try discriminate.
    - injection H as <-. reflexivity.
    - cbn [firstn app]. f_equal. apply IH. exact H.
  Qed.
  Lemma skipn_nth {A} (l : list A) i a : nth_error l i = Some a -> skipn i l = a :: skipn (Datatypes.S i) l.
  Proof.
    revert i. induction l as [|b l IH]; intros [|i] H; try discriminate.
    - injection H as <-. reflexivity.
    - exact (IH i H).
  Qed.

  Lemma titems_app a b : titems (a ++ b) = titems a ++ titems b.
  Proof. unfold titems. apply flat_map_app. Qed.
  Lemma tfiles_S i m : nth_error ms i = Some m -> tfiles L (firstn (Datatypes.S i) ms) = tfiles L (firstn i ms) ++ tm_written L m.
  Proof. intros H. rewrite (firstn_S_nth _ _ _ H). unfold tfiles. rewrite flat_map_app. cbn. rewrite app_nil_r. reflexivity. Qed.
  Lemma jx_S i m : nth_error ms i = Some m -> jx (Datatypes.S i) = (jx i + length (tm_item m))%nat.
  Proof. intros H. unfold jx. rewrite (firstn_S_nth _ _ _ H), titems_app, app_length. cbn. rewrite app_nil_r. reflexivity. Qed.
  Lemma item_at i m e : nth_error ms i = Some m -> tm_entry m = Some e -> nth_error items (jx i) = Some (e, tm_node m).
  Proof.
    intros Hm He. rewrite <- (firstn_skipn i ms) at 1. rewrite titems_app. unfold jx.
    rewrite nth_error_app2 by lia. rewrite Nat.sub_diag. rewrite (skipn_nth _ _ _ Hm).
    cbn [titems flat_map]. unfold tm_item at 1. rewrite He. reflexivity.
  Qed.
  Lemma jx_all i : (length ms <= i)%nat -> jx i = length items.
  Proof. intros H. unfold jx. rewrite firstn_all2 by lia. reflexivity. Qed.

  Definition W (e : entry) (o : nat) : nat := match kl_of L e with Some _ => o | None => 0%nat end.
  Lemma W_le e o : (W e o <= o)%nat. Proof. unfold W. destruct (kl_of L e); lia. Qed.
  Lemma W_mono e o o' : (o <= o')%nat -> (W e o <= W e o')%nat.
  Proof. unfold W. destruct (kl_of L e); lia. Qed.
  Lemma W_0 e : W e 0 = 0%nat. Proof. unfold W. destruct (kl_of L e); reflexivity. Qed.

  (** ** Checkpoints *)
  (** the tar reader [o] bytes into the data of [m] *)
  Definition sr_in (m : tmember) (o : nat) : sr :=
    MkSr (Z.of_nat (tm_pos m + o)) (th_nb (tm_hdr m) - o) (th_pad (tm_hdr m)).

  (** saved when [o0] bytes of member [i] had been read, and its WriteOffset is
      now that after [o] bytes *)
  Definition saved (i : nat) (m : tmember) (o0 : nat) (c : teck) : Prop :=
    ec_data c = Some (MkTs (Some (tfiles L (firstn i ms))) (Some (sr_in m o0))) /\
    (o0 < th_nb (tm_hdr m))%nat /\
    exists sc0, lw_ck LL sc0 /\ ck_off sc0 = Z.of_nat (tm_pos m + o0) /\
      forall sc, ec_src c = Some sc -> sc = sc0 \/ Sp sc0 sc.

  Definition cshape (c : teck) : Prop :=
    exists i m e o, nth_error ms i = Some m /\ th_type (tm_hdr m) = TfReg /\ tm_entry m = Some e /\
      (o <= length (tm_data m))%nat /\ ec_index c = Z.of_nat i /\
      ec_entry c = Some (set_woff e (Z.of_nat (W e o))) /\ saved i m o c.
  Definition cpos (c : teck) : pos := (jx (Z.to_nat (ec_index c)), Z.to_nat (tck_woff S c)).
  Definition tgood (st : k_st SK) (c : teck) : Prop :=
    cshape c /\ settled (fst (cpos c)) st /\ part (fst (cpos c)) (snd (cpos c)) st.

  Definition csorted : list teck -> Prop := StronglySorted (fun c1 c2 => ple (cpos c2) (cpos c1)).
  Definition saver_ok : Prop := saver_noerr SV.

  (** ** The state of a run, seen from position [p], while the user also holds
      the checkpoints [prior]. *)
  Context (prior : list teck) (q0 : Z).
  (** how far a checkpoint is in the tar stream *)
  Definition tmeas (c : teck) : nat := match ec_data c with Some (MkTs _ (Some r)) => Z.to_nat (sr_off r) | _ => 0%nat end.
  (** the source is at [o], at or after [q0]; at [q0], it is not about to save *)
  Definition sq (src : s_st S) (o : nat) : Prop := q0 <= Z.of_nat o /\ (lw_quiet LL src \/ q0 < Z.of_nat o).
  Definition cks (x : tx) : list teck := rev (map fst (t_log x)) ++ prior.

  Definition unit_q (q : Q) : Prop := (0 <= q <= 1)%Q.
  Record logok (cs : teck * k_st SK) : Prop := {
    lo_good : tgood (snd cs) (fst cs);
    lo_prog : exists q, ec_prog (fst cs) = Some q /\ unit_q q;
    lo_src : exists sc l r, ec_src (fst cs) = Some sc /\ ec_data (fst cs) = Some (MkTs l (Some r)) /\ ck_off sc = sr_off r }.

  Record TI (p : pos) (x : tx) : Prop := {
    ti_inv : kl_inv L (t_sink x);
    ti_settled : settled (fst p) (t_sink x);
    ti_part : part (fst p) (snd p) (t_sink x);
    ti_lin : Forall (fun c => tgood (t_sink x) c /\ ple (cpos c) p) (cks x);
    ti_sorted : csorted (cks x);
    ti_log : Forall logok (t_log x);
    ti_prog : Forall unit_q (t_prog x);
    ti_stop : t_stop x = true -> t_stoperr x = Some EStop;
    ti_stoperr : t_stoperr x = None \/ t_stoperr x = Some EStop;
    ti_fwd : Forall (fun cs => q0 < Z.of_nat (tmeas (fst cs))) (t_log x);
    ti_stopped : t_stoperr x = Some EStop -> t_log x <> [] }.
  (** asked to stop in between, or not *)
  Definition stops (x x' : tx) : Prop :=
    t_stop x' = t_stop x /\ t_stoperr x' = t_stoperr x \/
    ~ saver_goes_on SV /\ t_stop x' = true /\ t_stoperr x' = Some EStop.
  Lemma stops_trans x y z : stops x y -> stops y z -> stops x z.
  Proof. unfold stops. intuition congruence. Qed.

  Hypothesis Hvalid : storable L items.
  Hypothesis Hlay : tlayout F D tm N 0 0 ms ok.
  Hypothesis Hlate : lw_late LL = false.

  Lemma tgood_step j w st st' c : kstep j w st st' -> ple (cpos c) (j, w) -> tgood st c -> tgood st' c.
  Proof.
    intros Hk Hp (S1 & S2 & S3). unfold tgood. unfold ple in Hp. cbn [fst snd] in Hp. splits; auto.
    - eapply kstep_settled; eauto. lia.
    - eapply kstep_part; eauto.
  Qed.

  Lemma TI_sink p x x' : TI p x -> kstep (fst p) (snd p) (t_sink x) (t_sink x') ->
    t_log x' = t_log x -> t_prog x' = t_prog x -> t_stop x' = t_stop x -> t_stoperr x' = t_stoperr x -> TI p x'.
  Proof.
    intros [I1 I2 I3 I4 I5 I6 I7 I8 I9 I10 I11] Hk H1 H2 H3 H4.
    assert (Hc : cks x' = cks x) by (unfold cks; rewrite H1; reflexivity).
    split; rewrite ?Hc, ?H1, ?H2, ?H3, ?H4; auto.
    - destruct Hk as (e & nd & _ & Hi & _). exact Hi.
    - eapply kstep_settled; eauto.
    - eapply kstep_part; eauto.
    - eapply Forall_impl; [|exact I4]. intros c [G1 G2]. split; [|exact G2]. eapply tgood_step; eauto.
  Qed.

  Lemma TI_pos p q x : TI p x -> ple p q -> settled (fst q) (t_sink x) -> part (fst q) (snd q) (t_sink x) -> TI q x.
  Proof.
    intros [I1 I2 I3 I4 I5 I6 I7 I8 I9 I10 I11] Hpq Hs Hp. split; auto.
    eapply Forall_impl; [|exact I4]. intros c [G1 G2]. split; [exact G1|]. eapply ple_trans; eauto.
  Qed.

  Lemma TI_same p x x' : TI p x -> t_sink x' = t_sink x ->
    t_log x' = t_log x -> Forall unit_q (t_prog x') ->
    (t_stop x' = true -> t_stoperr x' = Some EStop) -> t_stoperr x' = t_stoperr x -> TI p x'.
  Proof.
    intros [I1 I2 I3 I4 I5 I6 I7 I8 I9 I10 I11] H0 H1 H2 H3 H4.
    assert (Hc : cks x' = cks x) by (unfold cks; rewrite H1; reflexivity).
    split; rewrite ?Hc, ?H0, ?H1, ?H4; auto. rewrite <- H4. exact H3.
  Qed.

  (** ** Copying one file *)
  Section Copy.
    Context (i : nat) (m : tmember) (e : entry).
    Hypothesis Hi : nth_error ms i = Some m.
    Hypothesis Hreg : th_type (tm_hdr m) = TfReg.
    Hypothesis He : tm_entry m = Some e.
    Notation j := (jx i).
    Notation DD := (tm_data m).
    Notation W := (W e).

    Lemma Hkind : en_kind e = EkFile.
    Proof. revert He. unfold tm_entry, tar_entry_of. rewrite Hreg. intros [= <-]. reflexivity. Qed.
    Lemma item_j : nth_error items j = Some (e, NFile DD).
    Proof. rewrite (item_at i m e Hi He). unfold tm_node. rewrite Hreg. reflexivity. Qed.
    Lemma data_m : DD = slice D (tm_pos m) (th_nb (tm_hdr m)).
    Proof. exact (proj1 (layout_nth F N ok ms 0 0 i m Hlay Hi)). Qed.
    Lemma after_m : after (tm_pos m) (th_nb (tm_hdr m)) (th_pad (tm_hdr m)) (skipn (Datatypes.S i) ms).
    Proof. exact (proj2 (layout_nth F N ok ms 0 0 i m Hlay Hi)). Qed.

    Record CI (o : nat) (x : tx) : Prop := {
      ci_idx : ec_index (t_ck x) = Z.of_nat i;
      ci_entry : ec_entry (t_ck x) = Some (set_woff e (Z.of_nat (W o)));
      ci_len : (o <= length DD)%nat;
      ci_res : ts_result (t_state x) = Some (tfiles L (firstn i ms));
      ci_saved : (ec_data (t_ck x) = None /\ ec_src (t_ck x) = None) \/ exists o0, (o0 <= o)%nat /\ saved i m o0 (t_ck x) }.

    Context (w : k_w SK).
    Notation E := (tar_cenv SK F S SV w).
    Notation onsave := (tar_on_save SK S SV).
    Notation writing := (writing L items view0 j e DD w).

    Lemma writing_W o st : writing o st -> (o <= length DD)%nat -> part j (W o) st.
    Proof. intros H Ho. eapply part_lower; [apply W_le|]. eapply writing_part; eauto using item_j. Qed.

    Lemma on_save_ok o x q sc x' r : TI (j, W o) x -> CI o x -> writing o (t_sink x) -> unit_q q ->
      lw_ck LL sc -> ck_off sc = Z.of_nat (tm_pos m + o) -> (o < th_nb (tm_hdr m))%nat -> q0 < Z.of_nat (tm_pos m + o) -> onsave q (sr_in m o) sc x = (x', r) ->
      TI (j, W o) x' /\ CI o x' /\ t_sink x' = t_sink x /\ r <> CPanic /\ r <> CErr EEof /\
      (saver_ok -> r = COk /\ stops x x').
    Proof.
      intros HT HC Hw Hq Hck Hoff Hnb Hq0. unfold tar_on_save. cbv zeta.
      destruct HC as [C1 C2 C3 C4 C5].
      set (ts := MkTs (ts_result (t_state x)) (Some (sr_in m o))).
      set (c := MkEck (Some sc) (ec_index (t_ck x)) (ec_entry (t_ck x)) (Some q) (Some ts)).
      assert (Hsv : saved i m o c).
      { split; [unfold c, ts; cbn; rewrite C4; reflexivity|]. split; [exact Hnb|]. exists sc. splits; auto. intros sc' [= <-]. auto. }
      assert (Hsh : cshape c).
      { exists i, m, e, o. splits; auto. }
      assert (Hps : cpos c = (j, W o)).
      { unfold cpos. change (ec_index c) with (ec_index (t_ck x)). rewrite C1, Nat2Z.id. f_equal.
        unfold tck_woff. change (ec_entry c) with (ec_entry (t_ck x)). rewrite C2. cbn. apply Nat2Z.id. }
      assert (Hgood : tgood (t_sink x) c).
      { unfold tgood. rewrite Hps. cbn [fst snd]. split; [exact Hsh|]. split; [exact (ti_settled _ _ HT)|exact (ti_part _ _ HT)]. }
      assert (HT' : forall v b se, (b = true -> se = Some EStop) -> (se = None \/ se = Some EStop) ->
         TI (j, W o) (MkTx SK S SV (t_sink x) c ts v b se (t_prog x) (t_log x ++ [(c, t_sink x)]))).
      { intros v b se Hb Hse. destruct HT as [I1 I2 I3 I4 I5 I6 I7 I8 I9 I10 I11].
        assert (Hcks : cks (MkTx SK S SV (t_sink x) c ts v b se (t_prog x) (t_log x ++ [(c, t_sink x)])) = c :: cks x).
        { unfold cks. cbn [Tar.t_log]. rewrite map_app, rev_app_distr. reflexivity. }
        split; rewrite ?Hcks; cbn [Tar.t_sink Tar.t_log Tar.t_prog Tar.t_stop Tar.t_stoperr]; auto.
        - constructor; [|exact I4]. split; [exact Hgood|]. rewrite Hps. apply ple_refl.
        - constructor; [exact I5|]. rewrite Hps. eapply Forall_impl; [|exact I4]. intros c' [_ G]. exact G.
        - apply Forall_app. split; [exact I6|]. constructor; [|constructor]. split; cbn; eauto. exists sc, (ts_result (t_state x)), (sr_in m o). auto.
        - apply Forall_app. split; [exact I10|]. constructor; [|constructor]. unfold tmeas, c, ts. cbn. lia.
        - intros _. destruct (t_log x); discriminate. }
      assert (HC' : forall v b se, CI o (MkTx SK S SV (t_sink x) c ts v b se (t_prog x) (t_log x ++ [(c, t_sink x)]))).
      { intros. split; cbn [Tar.t_ck Tar.t_state]; auto. right. exists o. auto. }
      destruct (sv_save SV (t_sv x) c) as [v' [[|]|er]] eqn:Hsave; injection 1 as <- <-; splits; auto; try discriminate.
      - intros _. split; [reflexivity|]. right. splits; auto.
        intros Hgo. destruct (Hgo (t_sv x) c) as (? & Hs'). pose proof (eq_trans (eq_sym Hsave) Hs') as Hx. discriminate Hx.
      - apply HT'; [exact (ti_stop _ _ HT)|exact (ti_stoperr _ _ HT)].
      - intros _. split; [reflexivity|]. left. auto.
      - apply HT'; [exact (ti_stop _ _ HT)|exact (ti_stoperr _ _ HT)].
      - destruct er; cbn; discriminate.
      - intros Hs. destruct (Hs (t_sv x) c) as (? & ? & Hs'). pose proof (eq_trans (eq_sym Hsave) Hs') as Hx. discriminate Hx.
    Qed.

    Lemma copy_buf_pos : (0 < copy_buf)%nat.
    Proof. exact (proj1 (Nat.ltb_lt 0 copy_buf) eq_refl). Qed.

    Lemma len_DD : length DD = Nat.min (th_nb (tm_hdr m)) (length D - tm_pos m).
    Proof. rewrite data_m. unfold slice. rewrite firstn_length, skipn_length. reflexivity. Qed.

    Lemma sub_slice o n : (o + n <= th_nb (tm_hdr m))%nat -> slice D (tm_pos m + o) n = slice DD o n.
    Proof. intros H. rewrite data_m. symmetry. apply slice_slice. exact H. Qed.

    (** one Read of the entry's data *)
    Lemma copy_read src x o mm src1 s1 x1 rr :
      lw_at LL src (tm_pos m + o) mm -> sq src (tm_pos m + o) -> TI (j, W o) x -> CI o x -> writing o (t_sink x) ->
      sr_read F S (onsave (s_progress S src) (sr_in m o)) src (sr_in m o) x copy_buf = (src1, s1, x1, rr) ->
      TI (j, W o) x1 /\ CI o x1 /\ t_sink x1 = t_sink x /\
      match rr with
      | RRet d re =>
          d = slice DD o (length d) /\ (o + length d <= length DD)%nat /\ s1 = sr_in m (o + length d) /\
          (exists m1, lw_at LL src1 (tm_pos m + (o + length d)) m1 /\ (m1 <= mm)%nat /\ (re = None -> (m1 < mm)%nat)) /\
          (re = Some EEof -> (o + length d)%nat = th_nb (tm_hdr m)) /\
          (lw_clean LL src -> lw_clean LL src1) /\
          sq src1 (tm_pos m + (o + length d)) /\ (re = None -> q0 < Z.of_nat (tm_pos m + (o + length d))) /\
          (lw_clean LL src -> saver_ok -> tm = EEof -> (tm_pos m + th_nb (tm_hdr m) <= length D)%nat ->
             stops x x1 /\ (re = None \/ re = Some EEof))
      | _ => False
      end.
    Proof.
      intros Hat Hsq HT HC Hw. unfold sr_read. cbn [sr_nb sr_in sr_off sr_pad].
      pose proof copy_buf_pos as Hcb. pose proof len_DD as HlD. pose proof (ci_len _ _ HC) as Hol.
      destruct (Nat.min copy_buf (th_nb (tm_hdr m) - o)) as [|n] eqn:Hmin.
      { injection 1 as <- <- <- <-. cbn [length]. rewrite Nat.add_0_r, slice_0.
        splits; auto; try lia; try discriminate; [exists mm; splits; auto; discriminate|].
        intros. split; [left|]; auto. }
      set (n1 := Datatypes.S n) in *.
      destruct (s_read S (onsave (s_progress S src) (sr_in m o)) src x n1) as [[src' x'] r0] eqn:Hr.
      destruct (lw_read _ _ _ LL _ _ _ _ _ _ _ _ _ _ Hat (Nat.lt_0_succ n) Hr) as (evs & Hcalls & Hlen & Hgen & Hres).
      pose proof (lw_prog _ _ _ LL _ _ _ Hat) as Hpq.
      pose proof (lw_tm _ _ _ LL) as Htm.
      assert (Hx : match r0 with
        | RRet d re => TI (j, W o) x' /\ CI o x' /\ t_sink x' = t_sink x /\ (forall c, ~ In (c, CErr EEof) evs) /\
           (saver_ok -> (forall c rr, In (c, rr) evs -> rr = COk) /\ stops x x')
        | _ => False end).
      { destruct evs as [|[c x0] [|? ?]]; [| |cbn in Hlen; lia].
        - cbn in Hcalls. subst x'. destruct r0 as [d re| |]; [|destruct Hres as (? & [])|destruct Hres].
          splits; auto. intros _. split; [intros ? ? []|left; auto].
        - cbn in Hcalls. destruct Hcalls as (k1 & Hcall & ->).
          destruct (Hgen c x0 (or_introl eq_refl)) as [Hnq Hck].
          assert (Hlt : q0 < Z.of_nat (tm_pos m + o)) by (destruct Hsq as [_ [Hsq|Hsq]]; [contradiction|exact Hsq]).
          destruct r0 as [d re| |]; [| |destruct Hres].
          + destruct Hres as (_ & _ & _ & _ & _ & Hev & _).
            destruct (Hev c x0 (or_introl eq_refl)) as [_ Hoff]. rewrite Hlate in Hoff.
            destruct Hoff as [Hoff|[? _]]; [|discriminate].
            destruct (on_save_ok o x _ c k1 x0 HT HC Hw Hpq Hck Hoff ltac:(lia) Hlt Hcall) as (Z1 & C1 & W1 & R1 & R2 & R3).
            splits; auto.
            * intros c' [Hc'|[]]. congruence.
            * intros Hs. destruct (R3 Hs) as (-> & ?). splits; auto. intros c' r' [Hc'|[]]. congruence.
          + destruct Hres as (c' & [Hc'|[]]). injection Hc' as <- ->. exfalso.
            revert Hcall. unfold tar_on_save. cbv zeta. destruct (sv_save _ _ _) as [v' [[|]|e']]; discriminate. }
      destruct r0 as [d re| |]; [|destruct Hx..].
      assert (Hfwd : lw_quiet LL src -> re = None -> d <> []).
      { intros Hqu ->. exact (lw_fwd _ _ _ LL _ _ _ _ _ _ _ _ _ _ Hat Hqu (Nat.lt_0_succ n) Hr). }
      destruct Hx as (X1 & X2 & X3 & X4 & X5).
      destruct Hres as (Hdn & Hds & (m1 & Hat1 & Hm1 & Hm1') & Hq1 & Hcl1 & _ & Her).
      destruct (lw_at_len _ _ _ LL _ _ _ Hat1) as [Hl1 _].
      assert (Hsq1 : sq src' (tm_pos m + (o + length d))).
      { destruct Hsq as [Ha [Hb|Hb]]; split; (lia || auto). }
      assert (Hre : forall a : option gerr, (a = None -> re = None) -> a = None -> q0 < Z.of_nat (tm_pos m + (o + length d))).
      { intros a Ha Hb. specialize (Ha Hb). destruct Hsq as [Hc [Hd|Hd]]; [|lia].
        specialize (Hfwd Hd Ha). destruct d; [congruence|cbn [length]; lia]. }
      injection 1 as <- <- <- <-.
      splits; auto.
      - rewrite Hds at 1. apply sub_slice. lia.
      - lia.
      - unfold sr_in, zlen. f_equal; lia.
      - exists m1. rewrite Nat.add_assoc. splits; auto. intros Hn. apply Hm1'. destruct re as [re|]; [|reflexivity].
        destruct re; try discriminate. destruct (_ =? 0)%nat in Hn; discriminate.
      - destruct re as [re|].
        + destruct re; try discriminate.
          destruct (th_nb (tm_hdr m) - o - length d =? 0)%nat eqn:Hz; [|discriminate]. intros _. lia.
        + destruct (tf_eager F && _)%bool eqn:Hz; [|discriminate]. intros _. lia.
      - apply Hre. destruct re as [re|]; [|auto]. destruct re; try discriminate. destruct (_ =? 0)%nat; discriminate.
      - intros Hc Hs Ht Hfull. destruct (X5 Hs) as (E1 & E2). splits; auto.
        destruct re as [re|].
        + destruct Her as [(Hend & -> & _)|[(c' & Hc')|(? & ? & ?)]].
          * rewrite Ht. rewrite (proj2 (Nat.eqb_eq _ _)) by lia. auto.
          * specialize (E1 _ _ Hc'). discriminate.
          * tauto.
        + destruct (tf_eager F && _)%bool; auto.
    Qed.

    Definition copied (x : tx) (o : nat) (x' : tx) (o' : nat) : Prop :=
      (o <= o')%nat /\ TI (j, W o') x' /\ CI o' x' /\ writing o' (t_sink x').

    Definition cdone (src src' : s_st S) (s' : sr) (x' : tx) (mm o' : nat) (r : res unit) : Prop :=
      match r with
      | Ok _ => s' = sr_in m o' /\ (exists m', lw_at LL src' (tm_pos m + o') m' /\ (m' <= mm)%nat) /\
          (lw_clean LL src -> lw_clean LL src') /\ sq src' (tm_pos m + o') /\ (t_stop x' = true \/ o' = th_nb (tm_hdr m))
      | Panic => False
      | _ => True
      end.

    Lemma copy_loop_ok : forall fuel src x o mm pc src' s' x' r,
      lw_at LL src (tm_pos m + o) mm -> sq src (tm_pos m + o) -> TI (j, W o) x -> CI o x -> writing o (t_sink x) ->
      copy_loop E fuel (src, sr_in m o, x) pc = ((src', s', x'), r) ->
      exists o', copied x o x' o' /\ cdone src src' s' x' mm o' r /\
        (lw_clean LL src -> kl_clean L (t_sink x) -> saver_ok -> tm = EEof ->
           (tm_pos m + th_nb (tm_hdr m) <= length D)%nat -> (mm < fuel)%nat ->
           r = Ok tt /\ kl_clean L (t_sink x') /\ stops x x').
    Proof.
      assert (Hstop : forall src x o mm src' s' x' r, lw_at LL src (tm_pos m + o) mm -> sq src (tm_pos m + o) -> TI (j, W o) x -> CI o x -> writing o (t_sink x) ->
         ce_stopped E (src, sr_in m o, x) = true -> ((src, sr_in m o, x), Ok tt) = ((src', s', x'), r) ->
         exists o', copied x o x' o' /\ cdone src src' s' x' mm o' r).
      { intros src x o mm src' s' x' r Hat Hsq HZ HC Hw Hs. injection 1 as <- <- <- <-. exists o. split; [unfold copied; splits; auto|].
        unfold cdone. splits; auto. exists mm. auto. }
      induction fuel as [|f IH]; intros src x o mm pc src' s' x' r Hat Hsq HT HC Hw; cbn [copy_loop].
      - destruct (ce_stopped E (src, sr_in m o, x)) eqn:Hst.
        + intros Heq. destruct (Hstop _ _ _ _ _ _ _ _ Hat Hsq HT HC Hw Hst Heq) as (o' & H1 & H2). exists o'. splits; auto. intros; lia.
        + injection 1 as <- <- <- <-. exists o. unfold copied. splits; auto; [exact Logic.I|intros; lia].
      - destruct (ce_stopped E (src, sr_in m o, x)) eqn:Hst.
        { intros Heq. destruct (Hstop _ _ _ _ _ _ _ _ Hat Hsq HT HC Hw Hst Heq) as (o' & H1 & H2). exists o'. splits; auto.
          intros K1 K2 K3 K4 K5 K6. injection Heq as <- <- <- <-. splits; auto. left. auto. }
        unfold copy_step.
        change (ce_read E (src, sr_in m o, x) copy_buf) with
          (let '(src', s', x', r) := sr_read F S (onsave (s_progress S src) (sr_in m o)) src (sr_in m o) x copy_buf in ((src', s', x'), r)).
        destruct (sr_read F S (onsave (s_progress S src) (sr_in m o)) src (sr_in m o) x copy_buf) as [[[src1 s1] x1] rr] eqn:Hr.
        destruct (copy_read src x o mm src1 s1 x1 rr Hat Hsq HT HC Hw Hr) as (Z1 & C1 & Hs1 & Hrr).
        assert (W1 : writing o (t_sink x1)) by (rewrite Hs1; exact Hw).
        destruct rr as [d re| |]; [|destruct Hrr..].
        destruct Hrr as (Hd & Hlen & -> & (m1 & Hat1 & Hm1 & Hm1') & Heof & Hclsrc & Hsq1 & Hlt1 & Hlive).
        destruct (k_write SK (t_sink x1) w d) as [s2 [[n adv] ew]] eqn:Hwr.
        destruct (write_step _ _ _ Hvalid _ _ _ item_j _ eq_refl Hkind _ _ _ _ _ _ _ _ W1 Hd Hlen Hwr)
          as (Hks & Hn & Hnone & Hcl & Hadv & Hw2).
        set (x2 := tx_ck SK S SV (tx_sink SK S SV x1 s2) (tck_set_woff S (t_ck x1) (tck_woff S (t_ck x1) + adv))).
        assert (Hsink2 : t_sink x2 = s2) by reflexivity.
        assert (HWn : (W o <= W (o + n))%nat) by (apply W_mono; lia).
        assert (C2 : CI (o + n) x2).
        { destruct C1 as [D1 D2 D3 D4 D5]. split.
          - exact D1.
          - change (ec_entry (t_ck x2)) with (option_map (fun e => set_woff e (tck_woff S (t_ck x1) + adv)) (ec_entry (t_ck x1))).
            unfold tck_woff. rewrite D2. cbn [option_map en_woff set_woff]. f_equal. unfold set_woff at 1 2. cbn. unfold set_woff. f_equal.
            rewrite Hadv. cbv [W]. destruct (kl_of L e); lia.
          - lia.
          - exact D4.
          - destruct D5 as [D5|(o0 & D5 & D6)]; [left; exact D5|right]. exists o0. split; [lia|exact D6]. }
        assert (Z2 : TI (j, W (o + n)) x2).
        { eapply (TI_pos (j, W o)).
          - eapply (TI_sink (j, W o) x1); [exact Z1|exact (kstep_lower _ _ _ _ _ _ _ (W_le e o) Hks)|reflexivity..].
          - right. split; [reflexivity|exact HWn].
          - exact (proj1 (proj2 Hw2)).
          - apply writing_W; [exact Hw2|exact (ci_len _ _ C2)]. }
        rewrite <- Hsink2 in Hw2.
        assert (HW : ce_write E (src1, sr_in m (o + length d), x1) d = ((src1, sr_in m (o + length d), x2), (n, ew)))
          by (cbn [ce_write tar_cenv]; rewrite Hwr; reflexivity).
        rewrite HW. clear HW.
        assert (Hc1 : kl_clean L (t_sink x) -> kl_clean L (t_sink x1)) by (rewrite Hs1; auto).
        destruct ew as [er|].
        { injection 1 as <- <- <- <-. exists (o + n)%nat. split; [unfold copied; splits; auto; lia|]. split; [exact Logic.I|].
          intros K1 K2 K3 K4 K5 K6. destruct (Hcl (Hc1 K2)). discriminate. }
        rewrite (Hnone eq_refl) in *.
        set (x3 := if pc + Z.of_nat (length d) >? progress_threshold then _ else _).
        assert (H3 : TI (j, W (o + length d)) (snd x3) /\ CI (o + length d) (snd x3) /\ t_sink (snd x3) = s2 /\
           fst x3 = (src1, sr_in m (o + length d)) /\
           t_stop (snd x3) = t_stop x1 /\ t_stoperr (snd x3) = t_stoperr x1).
        { subst x3. destruct (pc + Z.of_nat (length d) >? progress_threshold); [|splits; auto].
          cbn [ce_emit tar_cenv fst snd]. splits; auto.
          - eapply TI_same; [exact Z2|reflexivity|reflexivity| |exact (ti_stop _ _ Z2)|reflexivity].
            cbn [Tar.t_prog tx_prog]. apply Forall_app. split; [exact (ti_prog _ _ Z2)|]. constructor; [|constructor].
            exact (lw_prog _ _ _ LL _ _ _ Hat1).
          - destruct C2 as [E1 E2 E3 E4 E5]. split; assumption. }
        destruct x3 as [sr3 x3]. cbn [fst snd] in H3. destruct H3 as (Z3 & C3 & Hs3 & -> & Hst3 & Hse3).
        assert (Hw3 : writing (o + length d) (t_sink x3)) by (rewrite Hs3; exact Hw2).
        destruct re as [re|].
        { intros Heq.
          assert (Hx : src' = src1 /\ s' = sr_in m (o + length d) /\ x' = x3 /\ r = match re with EEof => Ok tt | _ => Err (with_stack re) end).
          { destruct re; injection Heq as <- <- <- <-; auto. }
          destruct Hx as (-> & -> & -> & ->). exists (o + length d)%nat. split; [unfold copied; splits; auto; lia|]. split.
          - destruct re; try exact Logic.I. unfold cdone. splits; auto. exists m1. auto.
          - intros K1 K2 K3 K4 K5 K6. destruct (Hlive K1 K3 K4 K5) as (M2 & [M4|M4]); [discriminate|].
            injection M4 as ->. splits; auto; [rewrite Hs3; exact (proj1 (Hcl (Hc1 K2)))|].
            eapply stops_trans; [exact M2|]. left. auto. }
        cbn [ce_should ce_want tar_cenv fst snd].
        destruct (sv_should SV (t_sv x3) (zlen d)) as [v4 b] eqn:Hsh.
        set (x4 := tx_sv SK S SV x3 v4).
        assert (Z4 : TI (j, W (o + length d)) x4)
          by (eapply TI_same; [exact Z3|reflexivity..|exact (ti_prog _ _ Z3)|exact (ti_stop _ _ Z3)|reflexivity]).
        assert (C4 : CI (o + length d) x4) by (destruct C3 as [E1 E2 E3 E4 E5]; split; assumption).
        set (sx := if b then _ else _).
        assert (H5 : exists src5, sx = (src5, sr_in m (o + length d), x4) /\ lw_at LL src5 (tm_pos m + (o + length d)) m1 /\ (lw_clean LL src1 -> lw_clean LL src5)).
        { subst sx. destruct b; eexists; (split; [reflexivity|]); splits; auto.
          - exact (proj1 (lw_want _ _ _ LL _ _ _ Hat1)).
          - exact (proj2 (lw_want _ _ _ LL _ _ _ Hat1)). }
        destruct H5 as (src5 & -> & Hat5 & Hcl5).
        assert (Hsq5 : sq src5 (tm_pos m + (o + length d))) by (split; [exact (proj1 Hsq1)|right; auto]).
        intros Hrec. destruct (IH _ _ _ _ _ _ _ _ _ Hat5 Hsq5 Z4 C4 Hw3 Hrec) as (o' & Hcp & Hres & Hl').
        exists o'. split.
        { destruct Hcp as (Q1 & Q2 & Q3 & Q4). unfold copied. splits; auto; lia. }
        split.
        { destruct r as [u| | |]; auto. destruct Hres as (R1 & (m' & R2 & R2') & R3 & R3' & R4). unfold cdone. splits; auto. exists m'. split; [exact R2|lia]. }
        intros K1 K2 K3 K4 K5 K6. destruct (Hlive K1 K3 K4 K5) as (M2 & _).
        specialize (Hm1' eq_refl).
        destruct Hl' as (R1 & R2 & R3); auto.
        + change (t_sink x4) with (t_sink x3). rewrite Hs3. exact (proj1 (Hcl (Hc1 K2))).
        + lia.
        + splits; auto. eapply stops_trans; [exact M2|]. eapply stops_trans; [|exact R3]. left. auto.
    Qed.
  End Copy.

  (** ** Between entries *)
  Record RI (i : nat) (src : s_st S) (s : sr) (x : tx) (mm : nat) : Prop := {
    ri_src : exists o nb pad, lw_at LL src o mm /\ sq src o /\ s = MkSr (Z.of_nat o) nb pad /\ after o nb pad (skipn i ms);
    ri_ti : TI (jx i, 0%nat) x;
    ri_ck : ec_entry (t_ck x) = None /\ ec_src (t_ck x) = None /\ ec_data (t_ck x) = None;
    ri_res : ts_result (t_state x) = Some (tfiles L (firstn i ms)) }.

  (** what the checkpoint object is when a run ends *)
  Definition objok (x : tx) : Prop :=
    ec_data (t_ck x) = None \/
    exists i m e o, nth_error ms i = Some m /\ th_type (tm_hdr m) = TfReg /\ tm_entry m = Some e /\ CI i m e o x /\ TI (jx i, W e o) x.

  Definition xdone (i : nat) (src src' : s_st S) (s' : sr) (x' : tx) (mm : nat) (r : res unit) : Prop :=
    (exists p, TI p x') /\ objok x' /\
    match r with
    | Ok _ => t_stoperr x' = None -> exists mm', RI (Datatypes.S i) src' s' x' mm' /\ (mm' <= mm)%nat /\ (lw_clean LL src -> lw_clean LL src')
    | Panic => False
    | _ => True
    end.
  Definition xlive (src : s_st S) (x : tx) (mm fuel : nat) : Prop :=
    lw_clean LL src /\ kl_clean L (t_sink x) /\ saver_ok /\ tm = EEof /\ ok = true /\ tsound L ms /\ (mm < fuel)%nat.
  Definition xgoes (x' : tx) (r : res unit) : Prop :=
    r = Ok tt /\ kl_clean L (t_sink x') /\ (t_stoperr x' = None \/ ~ saver_goes_on SV /\ t_stoperr x' = Some EStop).

  Lemma entry_woff m e : tm_entry m = Some e -> set_woff e 0 = e.
  Proof. unfold tm_entry, tar_entry_of. destruct (th_type _); intros [= <-]; reflexivity. Qed.

  Lemma extract_file i m e o src x mm fuel src' s' x' r :
    nth_error ms i = Some m -> th_type (tm_hdr m) = TfReg -> tm_entry m = Some e ->
    lw_at LL src (tm_pos m + o) mm -> sq src (tm_pos m + o) -> TI (jx i, W e o) x -> CI i m e o x -> t_stoperr x = None ->
    tar_extract SK F S SV fuel src (sr_in m o) (set_woff e (Z.of_nat (W e o))) x = (src', s', x', r) ->
    xdone i src src' s' x' mm r /\ (xlive src x mm fuel -> xgoes x' r).
  Proof.
    intros Hi Hreg He Hat Hsq HT HC Hse. unfold tar_extract.
    pose proof (Hkind m e Hreg He) as Hk. cbn [en_kind set_woff]. rewrite Hk.
    pose proof (item_j i m e Hi Hreg He) as Hij.
    destruct (k_getw SK (t_sink x) (set_woff e (Z.of_nat (W e o)))) as [st1 rw] eqn:Hget.
    pose proof (ci_len _ _ _ _ _ HC) as Hol.
    assert (HWo : (W e o <= length (tm_data m))%nat) by (pose proof (W_le e o); lia).
    destruct (getw_step _ _ _ Hvalid _ _ _ Hij _ eq_refl Hk _ _ _ _
      (ti_inv _ _ HT) (ti_settled _ _ HT) (ti_part _ _ HT) HWo Hget) as (Hks & Hrw).
    set (x1 := tx_sink SK S SV x st1).
    assert (T1 : TI (jx i, W e o) x1) by (eapply (TI_sink (jx i, W e o) x); [exact HT|exact Hks|reflexivity..]).
    assert (C1 : CI i m e o x1) by (destruct HC as [E1 E2 E3 E4 E5]; split; assumption).
    assert (O1 : objok x1) by (right; exists i, m, e, o; auto).
    destruct rw as [w|ew| |]; try contradiction.
    2:{ injection 1 as <- <- <- <-. split.
        - unfold xdone. splits; eauto.
        - intros (_ & Hc & _). tauto. }
    destruct Hrw as (Hwr & Hclw).
    unfold copier_do. cbn [ce_setstop tar_cenv fst snd].
    set (x2 := tx_stop SK S SV x1 false).
    assert (T2 : TI (jx i, W e o) x2).
    { eapply TI_same; [exact T1|reflexivity..|exact (ti_prog _ _ T1)|discriminate|reflexivity]. }
    assert (C2 : CI i m e o x2) by (destruct C1 as [E1 E2 E3 E4 E5]; split; assumption).
    assert (W2 : writing L items view0 (jx i) e (tm_data m) w o (t_sink x2)).
    { destruct Hwr as (Q1 & Q2 & Q3). unfold writing. splits; auto. unfold W in Q3.
      destruct (kl_of L e); exact Q3. }
    destruct (copy_loop (tar_cenv SK F S SV w) fuel (src, sr_in m o, x2) 0) as [[[src3 s3] x3] r3] eqn:Hcop.
    destruct (copy_loop_ok i m e Hi Hreg He w _ _ _ _ _ _ _ _ _ _ Hat Hsq T2 C2 W2 Hcop) as (o' & (Q1 & Q2 & Q3 & Q4) & Q5 & Q6).
    change (snd (src3, s3, x3)) with x3.
    destruct (k_closew SK (t_sink x3) w) as [st4 rc] eqn:Hcl.
    destruct (closew_step _ _ _ _ _ _ Hij _ _ _ _ _ _ Q4 Hcl) as (Hk4 & Hcl4 & Hv4).
    assert (Hlive : xlive src x mm fuel -> r3 = Ok tt /\ kl_clean L (t_sink x3) /\ (t_stoperr x3 = None \/ ~ saver_goes_on SV /\ t_stoperr x3 = Some EStop)).
    { intros (K1 & K2 & K3 & K4 & K5 & K6 & K7).
      assert (Hfull : (tm_pos m + th_nb (tm_hdr m) <= length D)%nat).
      { destruct (after_m i m Hi) as [[Ha _]|(_ & _ & Ha)]; [exact Ha|congruence]. }
      destruct (Q6 K1 (Hclw K2) K3 K4 Hfull K7) as (? & ? & HH). splits; auto.
      destruct HH as [[_ HH]|(HH & _ & HH')]; [left; rewrite HH; exact Hse|right; auto]. }
    assert (Hclosed : TI (jx i, W e o') (tx_sink SK S SV x3 st4)).
    { eapply (TI_sink (jx i, W e o') x3); [exact Q2|exact (kstep_lower _ _ _ _ _ _ _ (W_le e o') Hk4)|reflexivity..]. }
    assert (Hobj : objok (tx_sink SK S SV x3 st4)).
    { right. exists i, m, e, o'. splits; auto. destruct Q3 as [E1 E2 E3 E4 E5]; split; assumption. }
    destruct r3 as [u|e3| |].
    - cbn [cdone] in Q5. destruct Q5 as (-> & (m3 & Hat3 & Hm3) & Hcs3 & Hsq3 & Hfin).
      cbv zeta. rewrite (ci_entry _ _ _ _ _ Q3), (ci_res _ _ _ _ _ Q3). cbn [option_map].
      set (x4 := tx_sink _ _ _ _ _).
      assert (Hs4 : t_sink x4 = st4) by (unfold x4; cbn; rewrite Hcl; reflexivity).
      injection 1 as <- <- <- <-.
      assert (T4 : TI (jx i, W e o') x4).
      { eapply (TI_same (jx i, W e o') (tx_sink SK S SV x3 st4)); [exact Hclosed|exact Hs4|reflexivity| |exact (ti_stop _ _ Hclosed)|reflexivity].
        unfold x4. cbn [Tar.t_prog tx_prog tx_sink tar_reset tx_ck tx_state]. apply Forall_app. split; [exact (ti_prog _ _ Q2)|].
        constructor; [|constructor]. exact (lw_prog _ _ _ LL _ _ _ Hat3). }
      split.
      + unfold xdone. splits; [eauto|left; reflexivity|].
        intros Hn. change (t_stoperr x4) with (t_stoperr x3) in Hn.
        destruct Hfin as [Hst|Hfin]; [rewrite (ti_stop _ _ Q2 Hst) in Hn; discriminate|].
        exists m3. split; [|auto].
        pose proof (len_DD i m Hi) as HlD. pose proof (ci_len _ _ _ _ _ Q3) as Hol'.
        assert (Ho' : o' = length (tm_data m)) by lia.
        assert (Hset : settled (Datatypes.S (jx i)) st4).
        { eapply settled_views; [exact Hv4|]. rewrite Ho' in Q4. eapply writing_done; eauto. }
        assert (HjS : jx (Datatypes.S i) = Datatypes.S (jx i)).
        { rewrite (jx_S i m Hi). unfold tm_item. rewrite He. cbn. lia. }
        split.
        * exists (tm_pos m + o')%nat, 0%nat, (th_pad (tm_hdr m)). splits; [exact Hat3|exact Hsq3|unfold sr_in; f_equal; lia|].
          destruct (lw_at_len _ _ _ LL _ _ _ Hat3) as [Hl3 _].
          destruct (after_m i m Hi) as [[Ha Hb]|(Ha & _)]; [|lia].
          left. rewrite Nat.add_0_r, Hfin. auto.
        * rewrite HjS. eapply (TI_pos (jx i, W e o')); [exact T4|left; cbn; lia| |apply part_0; exact view0].
          cbn [fst]. rewrite Hs4. exact Hset.
        * auto.
        * unfold x4. cbn [Tar.t_state tx_prog tx_sink tar_reset tx_ck tx_state ts_result]. f_equal.
          rewrite (tfiles_S i m Hi). f_equal. unfold tm_written. rewrite He, Hreg. f_equal.
          rewrite Ho'. unfold W, zlen. destruct (kl_of L e); reflexivity.
      + intros Hl. destruct (Hlive Hl) as (L1 & L2 & L4). unfold xgoes. splits; [destruct u; reflexivity|rewrite Hs4; auto|exact L4].
    - cbn [fst]. intros [= <- <- <- <-]. split; [unfold xdone; splits; eauto; exact Logic.I|]. intros Hl. destruct (Hlive Hl). discriminate.
    - destruct Q5.
    - intros [= <- <- <- <-]. split; [|intros Hl; destruct (Hlive Hl); discriminate].
      unfold xdone. splits; [eauto|right; exists i, m, e, o'; auto|exact Logic.I].
  Qed.

  (** ** The loop *)
  (** [fin]: the state in which the end of the archive was found *)
  Definition lpost (x' : tx) (r : res unit) : Prop :=
    match r with
    | Ok _ =>
        (exists x0, x' = tx_stoperr SK S SV x0 EEof /\ TI (length items, 0%nat) x0 /\ ok = true /\ ec_data (t_ck x0) = None /\
           ts_result (t_state x0) = Some (tfiles L ms)) \/
        (t_stoperr x' = Some EStop /\ objok x' /\ exists p, TI p x')
    | Panic => False
    | _ => objok x' /\ exists p, TI p x'
    end.

  Definition start (i : nat) (src : s_st S) (s : sr) (x : tx) (mm : nat) : Prop :=
    RI i src s x mm \/
    exists m e o, nth_error ms i = Some m /\ th_type (tm_hdr m) = TfReg /\ tm_entry m = Some e /\
      s = sr_in m o /\ lw_at LL src (tm_pos m + o) mm /\ sq src (tm_pos m + o) /\ TI (jx i, W e o) x /\ CI i m e o x.

  Lemma titems_entry_type m e : tm_entry m = Some e ->
    match th_type (tm_hdr m) with
    | TfDir => en_kind e = EkDir | TfSymlink => en_kind e = EkSymlink /\ en_link e = th_link (tm_hdr m)
    | TfReg => en_kind e = EkFile | TfOther => False end.
  Proof. unfold tm_entry, tar_entry_of. destruct (th_type _); intros [= <-]; auto. Qed.

  Lemma TI_ck p x c : TI p x -> TI p (tx_ck SK S SV x c).
  Proof. intros H. eapply TI_same; [exact H|reflexivity..|exact (ti_prog _ _ H)|exact (ti_stop _ _ H)|reflexivity]. Qed.

  Lemma iter_ok i src s x mm fuel src' s' x' r :
    start i src s x mm -> t_stoperr x = None -> tar_iter SK F S SV fuel src s (Z.of_nat i) x = (src', s', x', r) ->
    (xdone i src src' s' x' mm r \/ r = Ok tt /\ lpost x' r /\ t_stoperr x' = Some EEof) /\
    (xlive src x (mm + N) fuel -> r = Ok tt /\ kl_clean L (t_sink x') /\
       (t_stoperr x' = None /\ (i < length ms)%nat \/ t_stoperr x' = Some EEof \/ ~ saver_goes_on SV /\ t_stoperr x' = Some EStop)).
  Proof.
    intros Hst Hse. unfold tar_iter. cbv zeta. cbn [ec_entry].
    destruct Hst as [HR|(m & e & o & Hm & Hreg & He & -> & Hat & Hsq & HT & HC)].
    2:{ rewrite (ci_entry _ _ _ _ _ HC). intros Hop.
        set (x1 := tx_ck SK S SV x _) in Hop.
        assert (T1 : TI (jx i, W e o) x1) by (apply TI_ck; exact HT).
        assert (C1 : CI i m e o x1).
        { destruct HC as [E1 E2 E3 E4 E5]. split; auto. }
        destruct (extract_file i m e o src x1 mm fuel _ _ _ _ Hm Hreg He Hat Hsq T1 C1 Hse Hop) as [Hx Hl].
        split; [left; exact Hx|]. intros (K1 & K2 & K3 & K4 & K5 & K6 & K7).
        destruct Hl as (L1 & L2 & L3); [unfold xlive; splits; auto; lia|].
        splits; auto. destruct L3 as [L3|L3]; [left|right; right; exact L3]. split; [exact L3|]. apply nth_error_Some. congruence. }
    destruct HR as [(o & nb & pad & Hat & Hsq & -> & Haf) HT (Hc1 & Hc2 & Hc3) Hres].
    rewrite Hc1.
    set (x1 := tx_ck SK S SV x _).
    assert (T1 : TI (jx i, 0%nat) x1) by (apply TI_ck; exact HT).
    destruct (sr_next F S fuel src (MkSr (Z.of_nat o) nb pad)) as [[src1 s1] rn] eqn:Hn.
    pose proof (next_ok LL F N ok _ _ _ _ _ _ _ _ _ _ Hat Haf Hn) as HN.
    assert (Hfail : forall src0 s0 r0, (r0 = Hang \/ exists e, r0 = Err e) -> xdone i src src0 s0 x1 mm r0).
    { intros src0 s0 r0 Hr. unfold xdone. splits; [eauto|left; exact Hc3|]. destruct Hr as [->|(e & ->)]; exact Logic.I. }
    destruct rn as [h|er| |].
    - destruct HN as (q & m1 & rest' & Hrest & -> & Hat1 & Hm1 & Hcl1 & Haf1).
      set (m := MkTm h q (slice D q (th_nb h))) in *.
      assert (Hsq1 : sq src1 q).
      { rewrite Hrest in Haf. pose proof (after_pos F N ok _ _ _ _ _ Haf) as Hpos. change (o <= q)%nat in Hpos.
        destruct Hsq as [Ha [Hb|Hb]]; split; try lia. left.
        exact (next_quiet LL F _ _ _ _ _ _ _ _ Hat Hb Hn). }
      assert (Hm : nth_error ms i = Some m).
      { rewrite <- (firstn_skipn i ms), Hrest. rewrite nth_error_app2; rewrite firstn_length.
        - replace (i - Nat.min i (length ms))%nat with 0%nat; [reflexivity|].
          assert (length (skipn i ms) <> 0%nat) by (rewrite Hrest; discriminate). rewrite skipn_length in *. lia.
        - lia. }
      assert (Hsk : skipn (Datatypes.S i) ms = rest').
      { rewrite (skipn_nth _ _ _ Hm) in Hrest. congruence. }
      assert (Hlt : (i < length ms)%nat) by (apply nth_error_Some; congruence).
      destruct (tar_entry_of h) as [e|] eqn:He; change (tm_entry m = Some e) in He || change (tm_entry m = None) in He.
      2:{ injection 1 as <- <- <- <-. split.
          - left. unfold xdone. splits; [eauto|left; exact Hc3|]. intros _. exists m1. split; [|auto]. split.
            + exists q, (th_nb h), (th_pad h). rewrite Hsk. auto.
            + rewrite (jx_S i m Hm). unfold tm_item. rewrite He. cbn. rewrite Nat.add_0_r. exact T1.
            + auto.
            + change (t_state x1) with (t_state x). rewrite (tfiles_S i m Hm). unfold tm_written. rewrite He, app_nil_r. exact Hres.
          - intros (K1 & K2 & _). splits; auto. }
      pose proof (titems_entry_type m e He) as Hty. pose proof (entry_woff m e He) as Hwo.
      pose proof (item_at i m e Hm He) as Hij.
      assert (HjS : jx (Datatypes.S i) = Datatypes.S (jx i)).
      { rewrite (jx_S i m Hm). unfold tm_item. rewrite He. cbn. lia. }
      set (x2 := tx_ck SK S SV x1 _).
      assert (T2 : TI (jx i, 0%nat) x2) by (apply TI_ck; exact T1).
      destruct (th_type (tm_hdr m)) eqn:Htype.
      + (* a directory *)
        unfold tar_extract. rewrite Hty. change (t_sink x2) with (t_sink x).
        destruct (k_mkdir SK (t_sink x) e) as [st' ro] eqn:Hop. rewrite <- Hwo in Hop.
        destruct (mkdir_step L items view0 Hvalid _ _ _ Hij _ _ _ _ (ti_inv _ _ HT) Hty Hop) as (Hks & Hcl & Hset).
        assert (T3 : TI (jx i, 0%nat) (tx_sink SK S SV x2 st')) by (eapply (TI_sink (jx i, 0%nat) x2); [exact T2|exact Hks|reflexivity..]).
        destruct ro as [er|]; injection 1 as <- <- <- <-.
        * split; [left; unfold xdone; splits; [eauto|left; exact Hc3|exact Logic.I]|].
          intros (K1 & K2 & _). destruct (Hcl K2). discriminate.
        * split.
          -- left. unfold xdone. splits; [exists (jx i, 0%nat); apply TI_ck; exact T3|left; reflexivity|]. intros _. exists m1. split; [|auto]. split.
             ++ exists q, (th_nb h), (th_pad h). rewrite Hsk. auto.
             ++ rewrite HjS. eapply (TI_pos (jx i, 0%nat)); [apply TI_ck; exact T3|left; cbn; lia| |apply part_0; exact view0].
                cbn [fst]. apply Hset; auto; [|exact (ti_settled _ _ HT)]. unfold tm_node. rewrite Htype. reflexivity.
             ++ auto.
             ++ change (ts_result (t_state x) = Some (tfiles L (firstn (Datatypes.S i) ms))). rewrite (tfiles_S i m Hm).
                unfold tm_written. rewrite He, Htype, app_nil_r. exact Hres.
          -- intros (K1 & K2 & _). splits; auto. exact (proj1 (Hcl K2)).
      + (* a symlink *)
        destruct Hty as [Hty Hlink].
        unfold tar_extract. rewrite Hty, Hlink. change (t_sink x2) with (t_sink x).
        destruct (k_symlink SK (t_sink x) e (th_link (tm_hdr m))) as [st' ro] eqn:Hop. rewrite <- Hwo in Hop.
        destruct (symlink_step L items view0 Hvalid _ _ _ Hij _ _ _ _ _ (ti_inv _ _ HT) Hty Hop) as (Hks & Hcl & Hset).
        assert (T3 : TI (jx i, 0%nat) (tx_sink SK S SV x2 st')) by (eapply (TI_sink (jx i, 0%nat) x2); [exact T2|exact Hks|reflexivity..]).
        assert (Hnd : tm_node m = NLink (th_link (tm_hdr m))) by (unfold tm_node; rewrite Htype; reflexivity).
        destruct ro as [er|]; injection 1 as <- <- <- <-.
        * split; [left; unfold xdone; splits; [eauto|left; exact Hc3|exact Logic.I]|].
          intros (K1 & K2 & K3 & K4 & K5 & K6 & K7). destruct (Hcl K2) as [_ Hno].
          assert (Hv : kl_vlink L e (th_link (tm_hdr m))). { apply K6. rewrite <- Hnd. eapply nth_error_In; exact Hij. }
          specialize (Hno Hv). discriminate.
        * split.
          -- left. unfold xdone. splits; [exists (jx i, 0%nat); apply TI_ck; exact T3|left; reflexivity|]. intros _. exists m1. split; [|auto]. split.
             ++ exists q, (th_nb h), (th_pad h). rewrite Hsk. auto.
             ++ rewrite HjS. eapply (TI_pos (jx i, 0%nat)); [apply TI_ck; exact T3|left; cbn; lia| |apply part_0; exact view0].
                cbn [fst]. apply Hset; auto; exact (ti_settled _ _ HT).
             ++ auto.
             ++ change (ts_result (t_state x) = Some (tfiles L (firstn (Datatypes.S i) ms))). rewrite (tfiles_S i m Hm).
                unfold tm_written. rewrite He, Htype, app_nil_r. exact Hres.
          -- intros (K1 & K2 & _). splits; auto. exact (proj1 (Hcl K2)).
      + (* a file *)
        intros Hop.
        assert (Hsr : MkSr (Z.of_nat q) (th_nb h) (th_pad h) = sr_in m 0).
        { unfold sr_in, m. cbn [tm_pos tm_hdr]. rewrite Nat.add_0_r, Nat.sub_0_r. reflexivity. }
        assert (Hw0 : e = set_woff e (Z.of_nat (W e 0))) by (rewrite W_0; symmetry; exact Hwo).
        rewrite Hsr in Hop.
        assert (Hat1' : lw_at LL src1 (tm_pos m + 0) m1) by (rewrite Nat.add_0_r; exact Hat1).
        assert (Hsq1' : sq src1 (tm_pos m + 0)) by (rewrite Nat.add_0_r; exact Hsq1).
        assert (T2' : TI (jx i, W e 0) x2) by (rewrite W_0; exact T2).
        assert (C2 : CI i m e 0 x2).
        { split; auto; [|lia]. change (Some e = Some (set_woff e (Z.of_nat (W e 0)))). congruence. }
        assert (Hop' : tar_extract SK F S SV fuel src1 (sr_in m 0) (set_woff e (Z.of_nat (W e 0))) x2 = (src', s', x', r))
          by (rewrite <- Hw0; exact Hop).
        destruct (extract_file i m e 0 src1 x2 m1 fuel _ _ _ _ Hm Htype He Hat1' Hsq1' T2' C2 Hse Hop') as [Hx Hl].
        split.
        * left. destruct Hx as (X1 & X2 & X3). unfold xdone. splits; auto. destruct r as [u| | |]; auto.
          intros Hno. destruct (X3 Hno) as (mm' & Y1 & Y2 & Y3). exists mm'. splits; auto. lia.
        * intros (K1 & K2 & K3 & K4 & K5 & K6 & K7).
          destruct Hl as (L1 & L2 & L3); [unfold xlive; splits; auto; lia|]. splits; auto. destruct L3 as [L3|L3]; auto.
      + destruct Hty.
    - destruct (gerr_eqb er EEof) eqn:Her.
      + apply gerr_eqb_eq in Her. subst er. injection 1 as <- <- <- <-.
        destruct HN as [(Hr & Hok)|[_ HN]]; [|congruence].
        assert (Hlen : (length ms <= i)%nat) by (assert (HH := f_equal (@length _) Hr); rewrite skipn_length in HH; cbn in HH; lia).
        split.
        * right. splits; auto. left. exists x1. splits; auto.
          -- rewrite <- (jx_all i Hlen). exact T1.
          -- tauto.
          -- change (t_state x1) with (t_state x). rewrite Hres. rewrite firstn_all2 by lia. reflexivity.
        * intros (K1 & K2 & _). splits; auto.
      + assert (Hne : er <> EEof) by (intros ->; discriminate). intros Heq.
        assert (Hx : src' = src1 /\ s' = s1 /\ x' = x1 /\ r = Err (with_stack er)) by (destruct er; try (injection Heq as <- <- <- <-; auto); congruence).
        destruct Hx as (-> & -> & -> & ->). split; [left; apply Hfail; eauto|].
        intros (K1 & K2 & K3 & K4 & K5 & K6 & K7). destruct HN as [(Hr & Hok)|[HN _]]; [exfalso; tauto|tauto].
    - destruct HN.
    - injection 1 as <- <- <- <-. split; [left; apply Hfail; auto|]. intros (_ & _ & _ & _ & _ & _ & K). lia.
  Qed.

  Lemma loop_ok fuel : forall lf i src s x mm x' r,
    start i src s x mm -> t_stoperr x = None -> tar_loop SK F S SV fuel lf src s (Z.of_nat i) x = (x', r) ->
    lpost x' r /\
    (xlive src x (mm + N) fuel -> (length ms - i + 1 < lf)%nat -> r = Ok tt /\ kl_clean L (t_sink x') /\
       (t_stoperr x' = Some EEof \/ ~ saver_goes_on SV /\ t_stoperr x' = Some EStop)).
  Proof.
    induction lf as [|lf IH]; intros i src s x mm x' r Hst Hse; cbn [tar_loop]; rewrite Hse.
    { injection 1 as <- <-. split; [|intros; lia]. cbn [lpost].
      destruct Hst as [[_ HT (_ & _ & Hc) _]|(m & e & o & H1 & H2 & H3 & _ & _ & _ & HT & HC)].
      - split; [left; exact Hc|eauto].
      - split; [right; exists i, m, e, o; auto|eauto]. }
    destruct (tar_iter SK F S SV fuel src s (Z.of_nat i) x) as [[[src1 s1] x1] r1] eqn:Hit.
    destruct (iter_ok i src s x mm fuel src1 s1 x1 r1 Hst Hse Hit) as [Hx Hl].
    destruct r1 as [u|e1| |].
    - intros Hloop. replace (Z.of_nat i + 1) with (Z.of_nat (Datatypes.S i)) in Hloop by lia.
      destruct (t_stoperr x1) as [se|] eqn:Hse1.
      + assert (Hdone : x' = x1 /\ r = Ok tt).
        { destruct lf; cbn [tar_loop] in Hloop; rewrite Hse1 in Hloop; injection Hloop as <- <-; auto. }
        destruct Hdone as [-> ->]. split.
        * destruct Hx as [((p & X1) & X2 & _)|(_ & X & _)].
          -- right. splits; eauto. destruct (ti_stoperr _ _ X1) as [Hn|Hn]; congruence.
          -- exact X.
        * intros Hlive _. destruct (Hl Hlive) as (_ & HH & [[J _]|[J|J]]); [congruence| |]; splits; auto; [left; congruence|right; split; [tauto|]; destruct J; congruence].
      + destruct Hx as [(_ & _ & X)|(_ & _ & X)]; [|congruence].
        destruct (X Hse1) as (mm' & HR & Hmm & Hcs).
        destruct (IH _ _ _ _ _ _ _ (or_introl HR) Hse1 Hloop) as [I1 I2]. split; [exact I1|].
        intros Hlive Hlf. destruct (Hl Hlive) as (_ & L2 & [[_ L3]|[L3|[_ L3]]]); [|discriminate..].
        destruct Hlive as (K1 & K2 & K3 & K4 & K5 & K6 & K7).
        apply I2; [|lia]. unfold xlive. splits; auto. lia.
    - injection 1 as <- <-. destruct Hx as [((p & X1) & X2 & _)|(X & _)]; [|discriminate].
      split; [cbn; eauto|]. intros Hlive _. destruct (Hl Hlive). discriminate.
    - destruct Hx as [(_ & _ & [])|(X & _)]; discriminate.
    - injection 1 as <- <-. destruct Hx as [((p & X1) & X2 & _)|(X & _)]; [|discriminate].
      split; [cbn; eauto|]. intros Hlive _. destruct (Hl Hlive). discriminate.
  Qed.

  (** ** Resume *)
  (** the caller's checkpoint object when Resume returns *)
  Definition ckobj (c : option teck) (st : k_st SK) (l : list teck) : Prop :=
    forall c', c = Some c' -> ec_data c' = None \/
      exists i m e o o0, nth_error ms i = Some m /\ th_type (tm_hdr m) = TfReg /\ tm_entry m = Some e /\ (o0 <= o)%nat /\
        (o <= length (tm_data m))%nat /\ ec_index c' = Z.of_nat i /\
        ec_entry c' = Some (set_woff e (Z.of_nat (W e o))) /\ saved i m o0 c' /\
        (W e o = W e o0 -> tgood st c' /\ Forall (fun c => ple (cpos c) (cpos c')) l).

  Record RO (out : tout SK S SV) : Prop := {
    ro_inv : kl_inv L (to_sink SK S SV out);
    ro_out : outside L items view0 (to_sink SK S SV out);
    ro_lin : Forall (tgood (to_sink SK S SV out)) (rev (map fst (to_log SK S SV out)) ++ prior);
    ro_sorted : csorted (rev (map fst (to_log SK S SV out)) ++ prior);
    ro_log : Forall logok (to_log SK S SV out);
    ro_prog : Forall unit_q (to_prog SK S SV out);
    ro_ck : prior <> [] -> ckobj (to_ck SK S SV out) (to_sink SK S SV out) (rev (map fst (to_log SK S SV out)) ++ prior);
    ro_res : match to_res SK S SV out with
             | Ok l => settled (length items) (to_sink SK S SV out) /\ ok = true /\ l = tfiles L ms /\
                 (forall c', prior <> [] -> to_ck SK S SV out = Some c' -> ec_data c' = None)
             | Panic => False
             | _ => True
             end;
    ro_obj : tar_point S (to_obj SK S SV out) <> None ->
      ckobj (to_obj SK S SV out) (to_sink SK S SV out) (rev (map fst (to_log SK S SV out)) ++ prior);
    ro_fwd : Forall (fun cs => q0 < Z.of_nat (tmeas (fst cs))) (to_log SK S SV out) }.
  Definition rgoes (out : tout SK S SV) : Prop :=
    ((exists l, to_res SK S SV out = Ok l) \/
     ~ saver_goes_on SV /\ to_res SK S SV out = Err EStop /\ to_log SK S SV out <> []) /\ kl_clean L (to_sink SK S SV out).

  Definition rlive (src : s_st S) (st : k_st SK) (fuel : nat) : Prop :=
    lw_clean LL src /\ kl_clean L st /\ saver_ok /\ tm = EEof /\ ok = true /\ tsound L ms /\ (lw_bound LL + N + length ms + 2 < fuel)%nat.

  Lemma obj_good i m e o o0 c st : nth_error ms i = Some m -> th_type (tm_hdr m) = TfReg -> tm_entry m = Some e ->
    (o <= length (tm_data m))%nat -> (o0 <= o)%nat -> ec_index c = Z.of_nat i ->
    ec_entry c = Some (set_woff e (Z.of_nat (W e o))) -> saved i m o0 c -> W e o = W e o0 ->
    settled (jx i) st -> part (jx i) (W e o) st ->
    tgood st c /\ cpos c = (jx i, W e o).
  Proof.
    intros H1 H2 H3 H4 H5 H6 H7 H8 H9 H10 H11.
    assert (Hps : cpos c = (jx i, W e o)).
    { unfold cpos, tck_woff. rewrite H6, H7, Nat2Z.id. cbn. rewrite Nat2Z.id. reflexivity. }
    split; [|exact Hps]. unfold tgood. rewrite Hps. splits; auto.
    exists i, m, e, o0. rewrite <- H9. splits; auto. lia.
  Qed.

  Lemma objok_ck x : objok x -> ckobj (Some (t_ck x)) (t_sink x) (cks x).
  Proof.
    intros H c' [= <-]. destruct H as [H|(i & m & e & o & H1 & H2 & H3 & HC & HT)]; [left; exact H|].
    destruct HC as [C1 C2 C3 C4 [[C5 _]|(o0 & C5 & C6)]]; [left; exact C5|right].
    exists i, m, e, o, o0. splits; auto. intros Hw.
    destruct (obj_good i m e o o0 (t_ck x) (t_sink x)) as [G1 G2]; auto; [exact (ti_settled _ _ HT)|exact (ti_part _ _ HT)|].
    split; [exact G1|]. rewrite G2. eapply Forall_impl; [|exact (ti_lin _ _ HT)]. intros c [_ G]. exact G.
  Qed.

  Lemma run_ok fuel i src s ck ts keep st v mm :
    start i (s_setssc S src) s (MkTx SK S SV st ck ts v false None [] []) mm -> ec_index ck = Z.of_nat i ->
    (prior <> [] -> keep = Some) ->
    let out := tar_run SK F S SV fuel src s ck ts keep st v in
    RO out /\ (rlive (s_setssc S src) st fuel -> rgoes out).
  Proof.
    intros Hst Hidx Hkeep. unfold tar_run. rewrite Hidx.
    destruct (tar_loop SK F S SV fuel fuel (s_setssc S src) s (Z.of_nat i) (MkTx SK S SV st ck ts v false None [] [])) as [x r] eqn:Hloop.
    destruct (loop_ok fuel fuel i _ _ _ _ _ _ Hst eq_refl Hloop) as [Hp Hl]. cbv zeta.
    assert (Hmm : (mm <= lw_bound LL)%nat).
    { destruct Hst as [[(o & nb & pad & Hat & _) _ _ _]|(m & e & o & _ & _ & _ & _ & Hat & _ & _)]; exact (proj2 (lw_at_len _ _ _ LL _ _ _ Hat)). }
    split.
    2:{ intros (K1 & K2 & K3 & K4 & K5 & K6 & K7).
        destruct Hl as (-> & Hcl & Hse); [unfold xlive; splits; auto; lia|lia|]. unfold rgoes. cbn [to_res to_sink to_log]. split; [|exact Hcl].
        destruct Hse as [Hse|[Hgo Hse]]; rewrite Hse; [eauto|right; splits; auto].
        destruct Hp as [(x0 & -> & _)|(_ & _ & p & Hp)]; [discriminate Hse|exact (ti_stopped _ _ Hp Hse)]. }
    assert (Hx : exists p x0, TI p x0 /\ t_sink x0 = t_sink x /\ t_log x0 = t_log x /\ t_prog x0 = t_prog x).
    { destruct r as [u|e| |]; cbn [lpost] in Hp.
      - destruct Hp as [(x0 & -> & Hx & _)|(_ & _ & p & Hx)]; [exists (length items, 0%nat), x0; auto|exists p, x; auto].
      - destruct Hp as (_ & p & Hx). exists p, x. auto.
      - destruct Hp.
      - destruct Hp as (_ & p & Hx). exists p, x. auto. }
    destruct Hx as (p & x0 & [I1 I2 I3 I4 I5 I6 I7 I8 I9 I10 I11] & E1 & E2 & E3).
    unfold cks in I4, I5. rewrite E1 in *. rewrite E2 in *. rewrite E3 in *.
    assert (Hobj : ckobj (Some (t_ck x)) (t_sink x) (rev (map fst (t_log x)) ++ prior)).
    { destruct r as [u|e| |]; cbn [lpost] in Hp.
      - destruct Hp as [(x1 & -> & _ & _ & Hd & _)|(_ & Ho & _)]; [|apply objok_ck; exact Ho].
        intros c' [= <-]. left. exact Hd.
      - apply objok_ck. tauto.
      - destruct Hp.
      - apply objok_ck. tauto. }
    split; cbn [to_sink to_log to_prog to_ck to_res to_obj]; auto.
    - exact (proj2 (proj2 I2)).
    - eapply Forall_impl; [|exact I4]. intros c [G _]. exact G.
    - intros Hpr. rewrite (Hkeep Hpr). exact Hobj.
    - destruct r as [u|e| |]; auto.
      destruct Hp as [(x1 & -> & Hx & Hok & Hd & Hr)|(Hse & _)].
      + cbn [Tar.t_stoperr tx_stoperr Tar.t_state Tar.t_sink Tar.t_ck]. rewrite Hr. splits; auto.
        * exact (ti_settled _ _ Hx).
        * intros c' Hpr. rewrite (Hkeep Hpr). intros [= <-]. exact Hd.
      + rewrite Hse. exact Logic.I.
  Qed.

  Lemma resume_fresh c src fuel st v out :
    prior = [] -> q0 = 0 -> tar_point S c = None -> lw_wf LL src -> lw_quiet LL src -> kl_inv L st -> outside L items view0 st ->
    out = tar_resume SK F S SV src fuel c st v ->
    RO out /\ (rlive src st fuel -> rgoes out).
  Proof.
    intros Hpr Hq0 Hpt Hwf Hqu Hi Ho ->. unfold tar_resume. rewrite Hpt.
    destruct (s_resume S src None) as [src1 r1] eqn:Hres.
    assert (Hno : forall x : sckpt (s_ck S), None = Some x -> lw_ck LL x) by discriminate.
    pose proof (lw_resume _ _ _ LL _ _ _ _ Hwf Hno Hres) as HR.
    assert (Hfail : forall r0, r0 <> Panic -> (forall l, r0 <> Ok l) -> RO (MkTout SK S SV st v c [] [] r0 c)).
    { intros r0 H1 H2. split; cbn; try rewrite Hpr; auto; try constructor; try congruence.
      - destruct r0; auto; exfalso; eapply H2; reflexivity. }
    destruct r1 as [z|e| |]; try contradiction.
    - destruct HR as (-> & mm & Hat & Hq1 & Hcl). specialize (Hq1 Hqu). change (Z.to_nat 0) with 0%nat in Hat.
      destruct (lw_setssc _ _ _ LL _ (lw_at_wf _ _ _ LL _ _ _ Hat)) as (_ & T2 & T3 & T4). specialize (T2 _ _ Hat).
      edestruct (run_ok fuel 0 src1 (MkSr 0 0 0) (MkEck None 0 None (Some 0%Q) None) (MkTs (Some []) None) (fun _ => c) st v mm) as [R1 R2].
      + left. split; auto.
        * exists 0%nat, 0%nat, 0%nat. splits; auto; [split; [lia|auto]|]. left. split; [cbn; lia|exact Hlay].
        * split; cbn; try rewrite Hpr; auto; try constructor; try discriminate.
          -- intros; lia.
          -- split; [intros; lia|exact Ho].
          -- apply part_0. exact view0.
      + reflexivity.
      + congruence.
      + split; [exact R1|]. intros (K1 & K2). apply R2. split; auto.
    - split; [apply Hfail; discriminate|]. intros (K1 & K2 & K3 & K4 & _). destruct HR as [HR|[_ HR]]; tauto.
  Qed.

  Hypothesis HSp : forall c c', lw_ck LL c -> Sp c c' -> lands LL (Some c') 0 (ck_off c).

  Lemma saved_lands i m o0 c : saved i m o0 c -> lands LL (ec_src c) 0 (Z.of_nat (tm_pos m + o0)).
  Proof.
    intros (_ & _ & sc0 & H1 & H2 & H3). pose proof (lw_ck_len _ _ _ LL _ H1).
    destruct (ec_src c) as [sc|].
    - destruct (H3 sc eq_refl) as [-> | H4].
      + eapply lands_weaken; [apply lands_genuine; intros x [= <-]; exact H1|lia|lia].
      + eapply lands_weaken; [exact (HSp _ _ H1 H4)|lia|lia].
    - eapply lands_weaken; [apply lands_genuine; discriminate|lia|lia].
  Qed.

  Lemma resume_at c earlier src fuel st v out :
    prior = c :: earlier -> q0 = Z.of_nat (tmeas c) -> lw_wf LL src -> lw_quiet LL src -> kl_inv L st -> outside L items view0 st ->
    Forall (tgood st) (c :: earlier) -> csorted (c :: earlier) ->
    out = tar_resume SK F S SV src fuel (Some c) st v ->
    RO out /\ (rlive src st fuel -> rgoes out).
  Proof.
    intros Hpr Hq0 Hwf Hqu Hi Ho Hg Hso ->. inversion Hg as [|c0 e0 Hgc Hge]; subst c0 e0.
    inversion Hso as [|c0 e0 Hs1 Hs2]; subst c0 e0.
    pose proof Hgc as ((i & m & e & o & Hm & Hreg & He & Hol & Hidx & Hent & Hsv) & Hset & Hpart).
    pose proof (saved_lands _ _ _ _ Hsv) as Hland.
    pose proof Hsv as (Hdata & Hnb & _).
    assert (Hps : cpos c = (jx i, W e o)).
    { unfold cpos, tck_woff. rewrite Hidx, Hent, Nat2Z.id. cbn. rewrite Nat2Z.id. reflexivity. }
    unfold tar_resume. unfold tar_point. rewrite Hdata.
    set (ts := MkTs (Some (tfiles L (firstn i ms))) (Some (sr_in m o))).
    destruct (s_resume S src (ec_src c)) as [src1 r1] eqn:Hres.
    pose proof (Hland _ _ _ Hwf Hqu Hres) as HR.
    assert (Hfail : forall r0, r0 <> Panic -> (forall l, r0 <> Ok l) -> RO (MkTout SK S SV st v (Some c) [] [] r0 (Some c))).
    { intros r0 H1 H2. split; cbn; try rewrite Hpr; auto; try apply Forall_nil.
      - intros _ c' [= <-]. right. exists i, m, e, o, o. splits; auto.
        intros _. split; [exact Hgc|]. constructor; [apply ple_refl|exact Hs2].
      - destruct r0; auto; exfalso; eapply H2; reflexivity.
      - intros _ c' [= <-]. right. exists i, m, e, o, o. splits; auto.
        intros _. split; [exact Hgc|]. constructor; [apply ple_refl|exact Hs2]. }
    destruct r1 as [z|er| |]; try contradiction.
    - destruct HR as (Hz & (m1 & Hat1) & Hq1 & Hcl1). cbn [sr_off sr_in].
      destruct (if z <? Z.of_nat (tm_pos m + o) then discard_by_read S drop_cb fuel src1 tt (Z.of_nat (tm_pos m + o) - z) else (src1, tt, Ok tt))
        as [[src2 u2] r2] eqn:Hdis.
      assert (Hd : match r2 with
        | Ok _ => exists mm, lw_at LL src2 (tm_pos m + o) mm /\ (lw_clean LL src1 -> lw_clean LL src2) /\ lw_quiet LL src2
        | Panic => False
        | _ => ~ (lw_clean LL src1 /\ (lw_bound LL < fuel)%nat /\ (tm_pos m + th_nb (tm_hdr m) <= length D)%nat)
        end).
      { destruct (z <? Z.of_nat (tm_pos m + o)) eqn:Hlt.
        - pose proof (discard_quiet LL _ _ _ _ _ _ _ _ Hat1 Hq1 Hdis) as HD.
          assert (Hnt : (lw_clean LL src1 /\ (lw_bound LL < fuel)%nat /\ (tm_pos m + th_nb (tm_hdr m) <= length D)%nat) -> exists u, r2 = Ok u).
          { intros (Hc & Hf & Hfull).
            pose proof (lw_at_len _ _ _ LL _ _ _ Hat1) as [_ Hmb].
            pose proof (discard_ok LL unit drop_cb (fun _ => True) fuel src1 _ _ _ _ _ _ _
              ltac:(intros; exfalso; tauto) Logic.I Hat1 ltac:(lia) Hdis) as (_ & _ & D3).
            destruct r2 as [u|e2| |]; try contradiction; [eauto|]. exfalso.
            destruct D3 as (o2 & m2 & _ & _ & _ & _ & [D3|(_ & _ & D4 & D5)]); [tauto|]. lia. }
          destruct r2 as [u|e2| |]; auto; try (intros Hx; destruct (Hnt Hx); discriminate).
          destruct HD as (m2 & H1 & H2 & H3 & H4). exists m2. split; [|split; [exact H4|exact H2]].
          replace (tm_pos m + o)%nat with (Z.to_nat z + Z.to_nat (Z.of_nat (tm_pos m + o) - z))%nat by lia. exact H1.
        - injection Hdis as <- <- <-. exists m1. splits; auto. replace (tm_pos m + o)%nat with (Z.to_nat z) by lia. exact Hat1. }
      assert (Hfull : ok = true -> (tm_pos m + th_nb (tm_hdr m) <= length D)%nat).
      { intros Hok. destruct (after_m i m Hm) as [[Ha _]|(_ & _ & Ha)]; [exact Ha|congruence]. }
      destruct r2 as [u|e2| |]; try contradiction.
      2,3: split; [apply Hfail; discriminate|intros (K1 & K2 & K3 & K4 & K5 & K6 & K7); exfalso; apply Hd; splits; auto; lia].
      destruct Hd as (mm & Hat & Hcl2 & Hq2).
      assert (Hsq : q0 = Z.of_nat (tm_pos m + o)).
      { rewrite Hq0. unfold tmeas. rewrite Hdata. cbn. lia. }
      destruct (lw_setssc _ _ _ LL _ (lw_at_wf _ _ _ LL _ _ _ Hat)) as (_ & T2 & T3 & T4). specialize (T2 _ _ Hat).
      edestruct (run_ok fuel i src2 (sr_in m o) c ts Some st v mm) as [R1 R2].
      + right. exists m, e, o. splits; auto; [split; [lia|auto]| |].
        * rewrite Hps in Hset, Hpart.
          split; cbn [Tar.t_sink Tar.t_log Tar.t_prog Tar.t_stop Tar.t_stoperr]; auto; try discriminate.
          -- unfold cks. cbn [Tar.t_log map rev app]. rewrite Hpr. constructor.
             ++ split; [exact Hgc|]. rewrite Hps. apply ple_refl.
             ++ rewrite Hps in Hs2. rewrite Forall_forall in *. auto.
          -- unfold cks. cbn [Tar.t_log map rev app]. rewrite Hpr. exact Hso.
        * split; auto. right. exists o. split; [lia|exact Hsv].
      + exact Hidx.
      + auto.
      + split; [exact R1|]. intros (K1 & K2). apply R2. split; auto.
    - split; [apply Hfail; discriminate|]. intros (K1 & K2 & K3 & K4 & _). destruct HR as [HR|[_ HR]]; tauto.
  Qed.
End TarProofs.
