(** TarOrder_proofs.v -- the calls a tar extraction makes, whatever the sink does. *)
From Verif Require Import Base Base_proofs Source Contract Seek Decomp Drive Copier Sink SinkSpec NoteSpec Zip ZipSpec Zip_proofs
  Tar TarSpec TarRead_proofs Tar_proofs.

Section Order.
  Context (S : source) (D : bytes) (tm : gerr) (LL : laws S D tm).
  Context (F : tfmt) (N : nat) (ok : bool) (ms : list tmember).
  Context (SK0 : sink).
  Notation SK := (noted SK0).
  Context (SV : saver (s_ck S) tstate).
  Notation tx := (tx SK S SV).
  Notation t_sink := (t_sink SK S SV).
  Notation t_ck := (t_ck SK S SV).
  Notation t_stop := (t_stop SK S SV).
  Notation t_stoperr := (t_stoperr SK S SV).
  Notation after := (tafter (D := D) (tm := tm) F N ok).
  Notation onsave := (tar_on_save SK S SV).
  Notation event := (kev (k_w SK0)).
  Definition evs (x : tx) : list event := snd (t_sink x).

  Definition is_write (v : event) : Prop := match v with KWrite _ _ => True | _ => False end.
  Definition is_body (v : event) : Prop := match v with KWrite _ _ | KCloseWriter _ => True | _ => False end.
  Definition more (P : event -> Prop) (x x' : tx) : Prop := exists t, evs x' = evs x ++ t /\ Forall P t.
  Definition sane (x : tx) : Prop := (t_stop x = true -> t_stoperr x = Some EStop) /\ (t_stoperr x = None \/ t_stoperr x = Some EStop).

  Lemma more_refl P x x' : evs x' = evs x -> more P x x'.
  Proof. intros H. exists []. rewrite app_nil_r. auto. Qed.
  Lemma more_trans P x y z : more P x y -> more P y z -> more P x z.
  Proof. intros (a & H1 & H2) (b & H3 & H4). exists (a ++ b). rewrite H3, H1, app_assoc. split; [reflexivity|apply Forall_app; auto]. Qed.

  Lemma calls_sink q s : forall es x x', calls (onsave q s) x es x' ->
    t_sink x' = t_sink x /\ ec_entry (t_ck x') = ec_entry (t_ck x) /\ (sane x -> sane x') /\ (forall c, ~ In (c, CPanic) es).
  Proof.
    induction es as [|[c r] es IH]; intros x x'; cbn [calls].
    - intros ->. splits; auto.
    - intros (x1 & Hc & H). destruct (IH _ _ H) as (I1 & I2 & I3 & I4).
      assert (H1 : t_sink x1 = t_sink x /\ ec_entry (t_ck x1) = ec_entry (t_ck x) /\ (sane x -> sane x1) /\ r <> CPanic).
      { revert Hc. unfold tar_on_save. destruct (sv_save _ _ _) as [v' [[|]|e]]; intros [= <- <-]; splits; auto; try discriminate.
        intros _. split; cbn; auto. }
      destruct H1 as (J1 & J2 & J3 & J4). splits; [congruence|congruence|auto|].
      intros c' [Hi|Hi]; [congruence|exact (I4 _ Hi)].
  Qed.

  Section Copy.
    Context (m : tmember) (w : k_w SK).
    Notation E := (tar_cenv SK F S SV w).
    Notation nb := (th_nb (tm_hdr m)).
    Notation sr_in := (sr_in m).

    Definition cend (src' : s_st S) (s' : sr) (x' : tx) (r : res unit) : Prop :=
      match r with
      | Ok _ => t_stop x' = true \/ exists mm', s' = sr_in nb /\ lw_at LL src' (tm_pos m + nb) mm'
      | Panic => False
      | _ => True
      end.

    Lemma copy_ev : forall fuel src x o mm pc src' s' x' r,
      lw_at LL src (tm_pos m + o) mm -> (o <= nb)%nat -> sane x ->
      copy_loop E fuel (src, sr_in o, x) pc = ((src', s', x'), r) ->
      more is_write x x' /\ sane x' /\ cend src' s' x' r.
    Proof.
      assert (Hcb : (0 < copy_buf)%nat) by (exact (proj1 (Nat.ltb_lt 0 copy_buf) eq_refl)).
      induction fuel as [|f IH]; intros src x o mm pc src' s' x' r Hat Ho Hs; cbn [copy_loop].
      { destruct (ce_stopped E (src, sr_in o, x)) eqn:Hst; injection 1 as <- <- <- <-;
          (splits; [apply more_refl; reflexivity|exact Hs|]); [left; exact Hst|exact Logic.I]. }
      destruct (ce_stopped E (src, sr_in o, x)) eqn:Hst.
      { injection 1 as <- <- <- <-. splits; [apply more_refl; reflexivity|exact Hs|left; exact Hst]. }
      unfold copy_step.
      change (ce_read E (src, sr_in o, x) copy_buf) with
        (let '(src', s', x', r) := sr_read F S (onsave (s_progress S src) (sr_in o)) src (sr_in o) x copy_buf in ((src', s', x'), r)).
      destruct (sr_read F S (onsave (s_progress S src) (sr_in o)) src (sr_in o) x copy_buf) as [[[src1 s1] x1] rr] eqn:Hr.
      assert (HR : exists d re m1, rr = RRet d re /\ s1 = sr_in (o + length d) /\ (o + length d <= nb)%nat /\
        lw_at LL src1 (tm_pos m + (o + length d)) m1 /\ t_sink x1 = t_sink x /\ sane x1 /\
        (re = Some EEof -> (o + length d)%nat = nb)).
      { revert Hr. unfold sr_read. cbn [sr_nb Tar_proofs.sr_in sr_off sr_pad].
        destruct (Nat.min copy_buf (nb - o)) as [|n] eqn:Hmin.
        { injection 1 as <- <- <- <-. exists [], (Some EEof), mm. cbn [length]. rewrite Nat.add_0_r. splits; auto. intros _. lia. }
        destruct (s_read S (onsave (s_progress S src) (sr_in o)) src x (Datatypes.S n)) as [[src2 x2] r0] eqn:Hr0.
        destruct (lw_read _ _ _ LL _ _ _ _ _ _ _ _ _ _ Hat (Nat.lt_0_succ n) Hr0) as (es & Hcalls & _ & _ & Hres).
        destruct (calls_sink _ _ _ _ _ Hcalls) as (C1 & _ & C2 & C3).
        destruct r0 as [d re| |]; [|destruct Hres as (c & Hc); exfalso; exact (C3 _ Hc)|destruct Hres].
        destruct Hres as (Hdn & _ & (m1 & Hat1 & _) & _).
        injection 1 as <- <- <- <-. exists d, (match re with
                   | Some EEof => if (nb - o - length d =? 0)%nat then Some EEof else Some EUnexpectedEof
                   | Some e => Some e
                   | None => if tf_eager F && (nb - o - length d =? 0)%nat then Some EEof else None
                   end), m1. splits; auto.
        - unfold Tar_proofs.sr_in, zlen. f_equal; lia.
        - lia.
        - rewrite Nat.add_assoc. exact Hat1.
        - destruct re as [re|].
          + destruct re; try discriminate. destruct (nb - o - length d =? 0)%nat eqn:Hz; [intros _; lia|discriminate].
          + destruct (tf_eager F && _)%bool eqn:Hz; [intros _; lia|discriminate]. }
      destruct HR as (d & re & m1 & -> & -> & Ho1 & Hat1 & Hs1 & Hsane1 & Heof).
      destruct (k_write SK (t_sink x1) w d) as [s2 [[n adv] ew]] eqn:Hwr.
      set (x2 := tx_ck SK S SV (tx_sink SK S SV x1 s2) (tck_set_woff S (t_ck x1) (tck_woff S (t_ck x1) + adv))).
      assert (HW : ce_write E (src1, sr_in (o + length d), x1) d = ((src1, sr_in (o + length d), x2), (n, ew)))
        by (cbn [ce_write tar_cenv]; rewrite Hwr; reflexivity).
      rewrite HW. clear HW.
      assert (M2 : more is_write x x2).
      { exists [KWrite w d]. split; [|repeat constructor]. unfold evs. change (t_sink x2) with s2. rewrite <- Hs1.
        revert Hwr. cbn [k_write noted]. destruct (k_write SK0 _ w d) as [t a]. intros [= <- _]. reflexivity. }
      assert (Hsane2 : sane x2) by exact Hsane1.
      destruct ew as [er|].
      { injection 1 as <- <- <- <-. splits; auto; exact Logic.I. }
      set (x3 := if pc + Z.of_nat n >? progress_threshold then _ else _).
      assert (H3 : fst x3 = (src1, sr_in (o + length d)) /\ t_sink (snd x3) = t_sink x2 /\ sane (snd x3)).
      { subst x3. destruct (pc + Z.of_nat n >? progress_threshold); splits; auto. }
      destruct x3 as [sr3 x3]. cbn [fst snd] in H3. destruct H3 as (-> & Hs3 & Hsane3).
      assert (M3 : more is_write x x3) by (eapply more_trans; [exact M2|apply more_refl; unfold evs; rewrite Hs3; reflexivity]).
      destruct re as [re|].
      { intros Heq.
        assert (Hx : src' = src1 /\ s' = sr_in (o + length d) /\ x' = x3 /\ r = match re with EEof => Ok tt | _ => Err (with_stack re) end).
        { destruct re; injection Heq as <- <- <- <-; auto. }
        destruct Hx as (-> & -> & -> & ->). splits; auto. destruct re; try exact Logic.I.
        right. exists m1. rewrite <- (Heof eq_refl). auto. }
      cbn [ce_should ce_want tar_cenv fst snd].
      destruct (sv_should SV (t_sv SK S SV x3) (zlen d)) as [v4 b] eqn:Hsh.
      set (x4 := tx_sv SK S SV x3 v4).
      set (sx := if b then _ else _).
      assert (H5 : exists src5, sx = (src5, sr_in (o + length d), x4) /\ lw_at LL src5 (tm_pos m + (o + length d)) m1).
      { subst sx. destruct b; eexists; (split; [reflexivity|]); auto. exact (proj1 (lw_want _ _ _ LL _ _ _ Hat1)). }
      destruct H5 as (src5 & -> & Hat5).
      intros Hrec. assert (Hsane4 : sane x4) by exact Hsane3. destruct (IH _ _ _ _ _ _ _ _ _ Hat5 Ho1 Hsane4 Hrec) as (I1 & I2 & I3).
      splits; auto. eapply more_trans; [exact M3|exact I1].
    Qed.
  End Copy.

  (** The events of one entry: it is handed over, then written. *)
  Definition entry_evs (es : list entry) (x x' : tx) : Prop :=
    (evs x' = evs x /\ es = []) \/
    exists v t e, evs x' = evs x ++ v :: t /\ handed_one v = [e] /\ es = [e] /\ Forall is_body t.

  Definition at_next (i : nat) (src : s_st S) (s : sr) : Prop :=
    exists o n pad mm, lw_at LL src o mm /\ s = MkSr (Z.of_nat o) n pad /\ after o n pad (skipn i ms).
  Definition ostart (i : nat) (src : s_st S) (s : sr) (x : tx) : Prop :=
    (ec_entry (t_ck x) = None /\ at_next i src s) \/
    exists m e o mm wo, nth_error ms i = Some m /\ tm_entry m = Some e /\ th_type (tm_hdr m) = TfReg /\
      ec_entry (t_ck x) = Some (set_woff e wo) /\ s = sr_in m o /\ (o <= th_nb (tm_hdr m))%nat /\ lw_at LL src (tm_pos m + o) mm.
  Hypothesis Hlay : tlayout F D tm N 0 0 ms ok.

  Definition opost (i : nat) (src' : s_st S) (s' : sr) (x' : tx) (es all : list entry) (r : res unit) : Prop :=
    match r with
    | Ok _ => sane x' -> es = all /\ (t_stoperr x' = None -> ec_entry (t_ck x') = None /\ at_next (Datatypes.S i) src' s')
    | _ => es = [] \/ es = all
    end.

  Lemma extract_ev i m e wo src s x fuel src' s' x' r :
    nth_error ms i = Some m -> tm_entry m = Some e -> sane x -> t_stoperr x = None ->
    (th_type (tm_hdr m) = TfReg -> exists o mm, s = sr_in m o /\ (o <= th_nb (tm_hdr m))%nat /\ lw_at LL src (tm_pos m + o) mm) ->
    (th_type (tm_hdr m) <> TfReg -> at_next (Datatypes.S i) src s) ->
    tar_extract SK F S SV fuel src s (set_woff e wo) x = (src', s', x', r) ->
    exists es, entry_evs es x x' /\ sane x' /\ opost i src' s' x' es [e] r.
  Proof.
    intros Hm He Hs Hse Hreg Hoth. unfold tar_extract.
    pose proof (titems_entry_type m e He) as Hty. cbn [en_kind en_link set_woff].
    assert (Hh0 : set_woff (set_woff e wo) 0 = e) by (rewrite <- (entry_woff m e He) at 2; reflexivity).
    destruct (th_type (tm_hdr m)) eqn:Htype.
    - rewrite Hty. cbn [k_mkdir noted].
      destruct (k_mkdir SK0 (fst (t_sink x)) (set_woff e wo)) as [t [er|]].
      + injection 1 as <- <- <- <-. exists [e]. split; [right; exists (KMkdir (set_woff e wo)), [], e; splits; auto; cbn; rewrite Hh0; reflexivity|].
        split; [exact Hs|]. right. reflexivity.
      + injection 1 as <- <- <- <-. exists [e]. split; [right; exists (KMkdir (set_woff e wo)), [], e; splits; auto; cbn; rewrite Hh0; reflexivity|].
        split; [exact Hs|]. cbn. intros _. split; [reflexivity|]. intros _. split; [reflexivity|]. apply Hoth. discriminate.
    - destruct Hty as [Hty Hl]. rewrite Hty. cbn [k_symlink noted].
      destruct (k_symlink SK0 (fst (t_sink x)) (set_woff e wo) (en_link e)) as [t [er|]].
      + injection 1 as <- <- <- <-. exists [e]. split; [right; exists (KSymlink (set_woff e wo) (en_link e)), [], e; splits; auto; cbn; rewrite Hh0; reflexivity|].
        split; [exact Hs|]. right. reflexivity.
      + injection 1 as <- <- <- <-. exists [e]. split; [right; exists (KSymlink (set_woff e wo) (en_link e)), [], e; splits; auto; cbn; rewrite Hh0; reflexivity|].
        split; [exact Hs|]. cbn. intros _. split; [reflexivity|]. intros _. split; [reflexivity|]. apply Hoth. discriminate.
    - rewrite Hty. destruct (Hreg eq_refl) as (o & mm & -> & Ho & Hat).
      destruct (k_getw SK (t_sink x) (set_woff e wo)) as [st1 rw] eqn:Hget.
      assert (H1 : snd st1 = evs x ++ [KGetWriter (set_woff e wo)]).
      { revert Hget. cbn [k_getw noted]. destruct (k_getw SK0 (fst (t_sink x)) (set_woff e wo)) as [t a] eqn:Hg. intros [= <- <-]. reflexivity. }
      set (x1 := tx_sink SK S SV x st1).
      assert (Hev : forall y, more is_body x1 y -> entry_evs [e] x y).
      { intros y (t & T1 & T2). right. exists (KGetWriter (set_woff e wo)), t, e. splits; auto.
        - rewrite T1. unfold evs at 1. change (t_sink x1) with st1. rewrite H1, <- app_assoc. reflexivity.
        - cbn. rewrite Hh0. reflexivity. }
      destruct rw as [w|ew| |]; [|injection 1 as <- <- <- <-; exists [e]; split; [apply Hev; apply more_refl; reflexivity|]; split; [exact Hs|right; reflexivity]
        |injection 1 as <- <- <- <-; exists [e]; split; [apply Hev; apply more_refl; reflexivity|]; split; [exact Hs|right; reflexivity]
        |injection 1 as <- <- <- <-; exists [e]; split; [apply Hev; apply more_refl; reflexivity|]; split; [exact Hs|right; reflexivity]].
      unfold copier_do. cbn [ce_setstop tar_cenv fst snd].
      set (x2 := tx_stop SK S SV x1 false).
      assert (Hs2 : sane x2) by (split; [discriminate|exact (proj2 Hs)]).
      destruct (copy_loop (tar_cenv SK F S SV w) fuel (src, sr_in m o, x2) 0) as [[[src3 s3] x3] r3] eqn:Hcop.
      destruct (copy_ev m w _ _ _ _ _ _ _ _ _ _ Hat Ho Hs2 Hcop) as (C1 & C2 & C3).
      change (snd (src3, s3, x3)) with x3.
      assert (Hcl : forall y, t_sink y = t_sink x3 -> entry_evs [e] x (tx_sink SK S SV y (fst (k_closew SK (t_sink y) w)))).
      { intros y Hy. apply Hev. destruct C1 as (t & T1 & T2). exists (t ++ [KCloseWriter w]). split.
        - unfold evs at 1. cbn [Tar.t_sink tx_sink]. rewrite Hy. cbn [k_closew noted]. destruct (k_closew SK0 (fst (t_sink x3)) w) as [tt0 a].
          cbn [fst snd]. unfold evs in T1. rewrite T1, <- app_assoc. reflexivity.
        - apply Forall_app. split; [|repeat constructor]. eapply Forall_impl; [|exact T2]. intros []; cbn; auto. }
      assert (Hno : entry_evs [e] x x3).
      { apply Hev. destruct C1 as (t & T1 & T2). exists t. split; [exact T1|]. eapply Forall_impl; [|exact T2]. intros []; cbn; auto. }
      destruct r3 as [u|e3| |].
      + cbv zeta. set (ts := MkTs _ _). intros Heq.
        set (y := tar_reset SK S SV (tx_prog SK S SV (tx_state SK S SV x3 ts) (s_progress S src3))) in Heq.
        injection Heq as <- <- <- <-. exists [e]. split; [apply (Hcl y); reflexivity|]. split; [exact C2|].
        cbn [opost]. intros _. split; [reflexivity|]. intros Hn. split; [reflexivity|].
        destruct C3 as [C3|(m3 & -> & C3)]; [pose proof (proj1 C2 C3) as Hk; assert (t_stoperr x3 = None) by exact Hn; congruence|].
        destruct (layout_nth F N ok ms 0 0 i m Hlay Hm) as [_ Haf].
        exists (tm_pos m + th_nb (tm_hdr m))%nat, 0%nat, (th_pad (tm_hdr m)), m3. splits; auto.
        * unfold sr_in. f_equal. lia.
        * destruct (lw_at_len _ _ _ LL _ _ _ C3) as [Hl3 _]. destruct Haf as [[Ha Hb]|(Ha & _)]; [|lia].
          left. rewrite Nat.add_0_r. auto.
      + cbv zeta. intros Heq. injection Heq as <- <- <- <-. exists [e]. split; [apply (Hcl x3); reflexivity|]. split; [exact C2|]. right. reflexivity.
      + destruct C3.
      + intros Heq. injection Heq as <- <- <- <-. exists [e]. split; [exact Hno|]. split; [exact C2|]. right. reflexivity.
    - destruct Hty.
  Qed.

  Lemma iter_ev i src s x fuel src' s' x' r :
    ostart i src s x -> sane x -> t_stoperr x = None ->
    tar_iter SK F S SV fuel src s (Z.of_nat i) x = (src', s', x', r) ->
    (exists m es, nth_error ms i = Some m /\ entry_evs es x x' /\ sane x' /\ opost i src' s' x' es (map fst (tm_item m)) r) \/
    (evs x' = evs x /\ (r = Hang \/ (exists e, r = Err e) \/ (r = Ok tt /\ t_stoperr x' = Some EEof /\ skipn i ms = []))).
  Proof.
    intros Hst Hs Hse. unfold tar_iter. cbv zeta. cbn [ec_entry].
    destruct Hst as [[Hn (o & nb & pad & mm & Hat & -> & Haf)]|(m & e & o & mm & wo & Hm & He & Hreg & Hent & -> & Ho & Hat)].
    2:{ rewrite Hent. intros Hop. left.
        set (x1 := tx_ck SK S SV x _) in Hop.
        assert (Hs1 : sane x1) by exact Hs. assert (Hse1 : t_stoperr x1 = None) by exact Hse.
        destruct (extract_ev i m e wo _ _ _ fuel _ _ _ _ Hm He Hs1 Hse1 ltac:(eauto) ltac:(congruence) Hop) as (es & X1 & X2 & X3).
        exists m, es. unfold tm_item. rewrite He. splits; auto. }
    rewrite Hn. set (x1 := tx_ck SK S SV x _).
    destruct (sr_next F S fuel src (MkSr (Z.of_nat o) nb pad)) as [[src1 s1] rn] eqn:Hnx.
    pose proof (next_ok LL F N ok _ _ _ _ _ _ _ _ _ _ Hat Haf Hnx) as HN.
    destruct rn as [h|er| |].
    - destruct HN as (q & m1 & rest' & Hrest & -> & Hat1 & Hm1 & Hcl1 & Haf1).
      set (m := MkTm h q (slice D q (th_nb h))) in *.
      assert (Hm : nth_error ms i = Some m).
      { rewrite <- (firstn_skipn i ms), Hrest. rewrite nth_error_app2; rewrite firstn_length.
        - replace (i - Nat.min i (length ms))%nat with 0%nat; [reflexivity|].
          assert (length (skipn i ms) <> 0%nat) by (rewrite Hrest; discriminate). rewrite skipn_length in *. lia.
        - lia. }
      assert (Hsk : skipn (Datatypes.S i) ms = rest').
      { rewrite (skipn_nth _ _ _ Hm) in Hrest. congruence. }
      assert (Hnext : at_next (Datatypes.S i) src1 (MkSr (Z.of_nat q) (th_nb h) (th_pad h))).
      { exists q, (th_nb h), (th_pad h), m1. rewrite Hsk. auto. }
      destruct (tar_entry_of h) as [e|] eqn:He; change (tm_entry m = Some e) in He || change (tm_entry m = None) in He.
      2:{ injection 1 as <- <- <- <-. left. exists m, []. unfold tm_item. rewrite He. splits; auto.
          - left. auto.
          - cbn. auto. }
      intros Hop. left. rewrite <- (entry_woff m e He) in Hop.
      set (x2 := tx_ck SK S SV x1 _) in Hop.
      assert (Hs2 : sane x2) by exact Hs. assert (Hse2 : t_stoperr x2 = None) by exact Hse.
      assert (Hreg : th_type (tm_hdr m) = TfReg -> exists o mm, MkSr (Z.of_nat q) (th_nb h) (th_pad h) = sr_in m o /\
        (o <= th_nb (tm_hdr m))%nat /\ lw_at LL src1 (tm_pos m + o) mm).
      { intros _. exists 0%nat, m1. rewrite Nat.add_0_r. splits; [|lia|exact Hat1].
        unfold sr_in, m. cbn [tm_pos tm_hdr]. rewrite Nat.add_0_r, Nat.sub_0_r. reflexivity. }
      destruct (extract_ev i m e 0 src1 _ x2 fuel _ _ _ _ Hm He Hs2 Hse2 Hreg (fun _ => Hnext) Hop) as (es & X1 & X2 & X3).
      exists m, es. unfold tm_item. rewrite He. splits; auto.
    - right. destruct (gerr_eqb er EEof) eqn:Her.
      + apply gerr_eqb_eq in Her. subst er. injection H as <- <- <- <-.
        destruct HN as [(Hr & Hok)|[_ HN]]; [|congruence]. split; [reflexivity|]. right. right. auto.
      + assert (Hx : x' = x1 /\ r = Err (with_stack er)).
        { destruct er; cbn in Her; try discriminate Her; injection H as <- <- <- <-; auto. }
        destruct Hx as [-> ->]. split; [reflexivity|]. right. left. eauto.
    - destruct HN.
    - injection 1 as <- <- <- <-. right. split; [reflexivity|]. left. reflexivity.
  Qed.

  (** What a run does to the sink, entry [i] being the next one. *)
  Definition in_order (i : nat) (t : list event) (done : bool) : Prop :=
    Forall (fun v => only_data v \/ handed_one v <> []) t /\ match t with v :: _ => handed_one v <> [] | [] => True end /\
    Forall (fun v => match v with KSync _ => False | _ => True end) t /\
    exists n, handed_entries t = firstn n (map fst (titems (skipn i ms))) /\
      (done = true -> (length (titems (skipn i ms)) <= n)%nat).

  Lemma entry_evs_app es x x' all : entry_evs es x x' -> es = [] \/ es = all ->
    exists t, evs x' = evs x ++ t /\ handed_entries t = es /\
      Forall (fun v => only_data v \/ handed_one v <> []) t /\ match t with v :: _ => handed_one v <> [] | [] => True end /\
      Forall (fun v => match v with KSync _ => False | _ => True end) t.
  Proof.
    intros [[H ->]|(v & t & e & H1 & H2 & -> & H3)] _.
    - exists []. rewrite app_nil_r. splits; auto.
    - exists (v :: t). splits; auto.
      + unfold handed_entries. cbn. rewrite H2. cbn. f_equal. clear -H3. induction H3 as [|a t Ha _ IH]; [reflexivity|].
        cbn. rewrite IH. destruct a; try contradiction; reflexivity.
      + constructor; [right; congruence|]. eapply Forall_impl; [|exact H3]. intros []; cbn; try contradiction; auto.
      + congruence.
      + constructor; [destruct v; try discriminate; exact Logic.I|]. eapply Forall_impl; [|exact H3]. intros []; cbn; try contradiction; auto.
  Qed.

  Lemma tm_item_short m : map fst (tm_item m) = [] \/ exists e, map fst (tm_item m) = [e].
  Proof. unfold tm_item. destruct (tm_entry m); cbn; eauto. Qed.

  Lemma sane_stop x : sane x -> t_stoperr x <> None -> t_stoperr x = Some EStop.
  Proof. intros [_ [H|H]] Hn; congruence. Qed.

  Lemma loop_ev fuel : forall lf i src s x x' r,
    ostart i src s x -> sane x -> t_stoperr x = None ->
    tar_loop SK F S SV fuel lf src s (Z.of_nat i) x = (x', r) ->
    exists t, evs x' = evs x ++ t /\ in_order i t (match r, t_stoperr x' with Ok _, Some EEof => true | _, _ => false end) /\
      (forall u, r = Ok u -> t_stoperr x' <> None).
  Proof.
    assert (Hnil : forall i d, (d = true -> skipn i ms = []) -> in_order i [] d).
    { intros i d Hd. split; [constructor|]. split; [exact Logic.I|]. split; [constructor|]. exists 0%nat. split; [reflexivity|].
      intros H. rewrite (Hd H). cbn. lia. }
    induction lf as [|lf IH]; intros i src s x x' r Hst Hs Hse; cbn [tar_loop]; rewrite Hse.
    { injection 1 as <- <-. exists []. rewrite app_nil_r. splits; auto; [apply Hnil|]; discriminate. }
    destruct (tar_iter SK F S SV fuel src s (Z.of_nat i) x) as [[[src1 s1] x1] r1] eqn:Hit.
    destruct (iter_ev i src s x fuel _ _ _ _ Hst Hs Hse Hit) as [(m & es & Hm & Hev & Hs1 & Hpost)|(Hev & Hr)].
    -
      assert (Hsk : titems (skipn i ms) = tm_item m ++ titems (skipn (Datatypes.S i) ms)).
      { rewrite (skipn_nth _ _ _ Hm). reflexivity. }
      assert (Hpart : forall t : list event, es = [] \/ es = map fst (tm_item m) -> handed_entries t = es ->
         exists n, handed_entries t = firstn n (map fst (titems (skipn i ms))) /\ (false = true -> (length (titems (skipn i ms)) <= n)%nat)).
      { intros t H1 H2. rewrite H2, Hsk, map_app. destruct H1 as [-> | ->]; [exists 0%nat; split; [reflexivity|discriminate]|].
        exists (length (map fst (tm_item m))). split; [|discriminate]. rewrite firstn_app, firstn_all, Nat.sub_diag. cbn. rewrite app_nil_r. reflexivity. }
      destruct r1 as [u|e1| |].
      + cbn [opost] in Hpost. destruct (Hpost Hs1) as [Hes Hnext]. clear Hpost.
        destruct (entry_evs_app es x x1 (map fst (tm_item m)) Hev (or_intror Hes)) as (t1 & T1 & T2 & T3 & T4 & T5).
        destruct (t_stoperr x1) as [se|] eqn:Hse1.
        * assert (Hstop : se = EStop) by (pose proof (sane_stop x1 Hs1); rewrite Hse1 in *; specialize (H ltac:(discriminate)); congruence).
          intros Hloop. assert (Hx : x' = x1 /\ r = Ok tt).
          { destruct lf; cbn [tar_loop] in Hloop; rewrite Hse1 in Hloop; injection Hloop as <- <-; auto. }
          destruct Hx as [-> ->]. rewrite Hse1. subst se. exists t1. splits; auto; [|discriminate].
          unfold in_order. splits; auto.
        * destruct (Hnext eq_refl) as [Hn1 Hn2]. clear Hnext. rewrite Z.add_1_r, <- Nat2Z.inj_succ. intros Hloop.
          destruct (IH (Datatypes.S i) src1 s1 x1 x' r (or_introl (conj Hn1 Hn2)) Hs1 Hse1 Hloop) as (t2 & U1 & (U2 & U3 & U4 & n & U5 & U6) & U7).
          exists (t1 ++ t2). split; [rewrite U1, T1, app_assoc; reflexivity|]. split; [|exact U7].
          unfold in_order. splits.
          -- apply Forall_app; auto.
          -- destruct t1; [exact U3|exact T4].
          -- apply Forall_app; auto.
          -- exists (length (map fst (tm_item m)) + n)%nat. split.
             ++ unfold handed_entries in *. rewrite flat_map_app, T2, U5, Hsk, map_app, Hes.
                rewrite firstn_app_2. reflexivity.
             ++ intros Hd. rewrite Hsk, app_length, map_length. specialize (U6 Hd). clear -U6. unfold item in *. lia.
      + injection 1 as <- <-. cbn [opost] in Hpost.
        destruct (entry_evs_app es x x1 (map fst (tm_item m)) Hev Hpost) as (t1 & T1 & T2 & T3 & T4 & T5).
        exists t1. splits; auto; [|discriminate]. unfold in_order. splits; auto.
      + injection 1 as <- <-. cbn [opost] in Hpost.
        destruct (entry_evs_app es x x1 (map fst (tm_item m)) Hev Hpost) as (t1 & T1 & T2 & T3 & T4 & T5).
        exists t1. splits; auto; [|discriminate]. unfold in_order. splits; auto.
      + injection 1 as <- <-. cbn [opost] in Hpost.
        destruct (entry_evs_app es x x1 (map fst (tm_item m)) Hev Hpost) as (t1 & T1 & T2 & T3 & T4 & T5).
        exists t1. splits; auto; [|discriminate]. unfold in_order. splits; auto.
    - intros Hloop. exists []. rewrite app_nil_r.
      assert (Hx : x' = x1 /\ (r = Hang \/ (exists e, r = Err e) \/ (r = Ok tt /\ t_stoperr x1 = Some EEof /\ skipn i ms = []))).
      { destruct Hr as [-> |[(e & ->)|(-> & H1 & H2)]].
        - injection Hloop as <- <-. auto.
        - injection Hloop as <- <-. split; [reflexivity|]. right. left. cbn. eauto.
        - destruct lf; cbn [tar_loop] in Hloop; rewrite H1 in Hloop; injection Hloop as <- <-; (split; [reflexivity|right; right; auto]). }
      destruct Hx as [-> Hx]. split; [exact Hev|]. split.
      + apply Hnil. destruct Hx as [-> |[(e & ->)|(-> & H1 & H2)]]; try discriminate. auto.
      + intros u ->. destruct Hx as [H|[(e & H)|(_ & H & _)]]; try discriminate. rewrite H. discriminate.
  Qed.

  Lemma run_ev fuel i src s ck ts keep (s0 : k_st SK0) v :
    ostart i (s_setssc S src) s (MkTx SK S SV (s0, []) ck ts v false None [] []) -> ec_index ck = Z.of_nat i ->
    let out := tar_run SK F S SV fuel src s ck ts keep (s0, []) v in
    in_order i (snd (to_sink SK S SV out)) (match to_res SK S SV out with Ok _ => true | _ => false end).
  Proof.
    intros Hst Hidx. unfold tar_run. rewrite Hidx.
    destruct (tar_loop SK F S SV fuel fuel (s_setssc S src) s (Z.of_nat i) (MkTx SK S SV (s0, []) ck ts v false None [] [])) as [x r] eqn:Hloop.
    assert (Hs : sane (MkTx SK S SV (s0, []) ck ts v false None [] [])) by (split; [discriminate|left; reflexivity]).
    destruct (loop_ev fuel fuel i _ _ _ _ _ Hst Hs eq_refl Hloop) as (t & T1 & T2 & T3). cbn in T1.
    cbv zeta. cbn [to_sink to_res]. unfold evs in T1. rewrite T1.
    destruct T2 as (U1 & U2 & U4 & n & U5 & U6). unfold in_order. splits; auto. exists n. split; [exact U5|].
    intros Hd. apply U6. destruct r as [u|e| |]; try discriminate. specialize (T3 u eq_refl).
    destruct (t_stoperr x) as [[]|]; try discriminate; try reflexivity. congruence.
  Qed.

  Lemma resume_fresh_ev c src fuel s0 v out : tar_point S c = None -> lw_wf LL src ->
    out = tar_resume SK F S SV src fuel c (s0, []) v ->
    in_order 0 (snd (to_sink SK S SV out)) (match to_res SK S SV out with Ok _ => true | _ => false end).
  Proof.
    intros Hpt Hwf ->. unfold tar_resume. rewrite Hpt.
    destruct (s_resume S src None) as [src1 r1] eqn:Hres.
    assert (Hno : forall x : sckpt (s_ck S), None = Some x -> lw_ck LL x) by discriminate.
    pose proof (lw_resume _ _ _ LL _ _ _ _ Hwf Hno Hres) as HR.
    assert (Hnil : in_order 0 [] false).
    { unfold in_order. splits; auto. exists 0%nat. split; [reflexivity|discriminate]. }
    destruct r1 as [z|e| |]; try contradiction; [|exact Hnil].
    destruct HR as (-> & mm & Hat & _ & Hcl). change (Z.to_nat 0) with 0%nat in Hat.
    destruct (lw_setssc _ _ _ LL _ (lw_at_wf _ _ _ LL _ _ _ Hat)) as (_ & T2 & _ & T4). specialize (T2 _ _ Hat).
    apply run_ev; [|reflexivity]. left. split; [reflexivity|].
    exists 0%nat, 0%nat, 0%nat, mm. splits; auto. left. split; [cbn; lia|exact Hlay].
  Qed.

  (** Resuming from a checkpoint within member [i] *)
  Lemma resume_at_ev ck i m e o wo l src fuel s0 v out :
    nth_error ms i = Some m -> tm_entry m = Some e -> th_type (tm_hdr m) = TfReg -> (o <= th_nb (tm_hdr m))%nat ->
    ec_index ck = Z.of_nat i -> ec_entry ck = Some (set_woff e wo) -> ec_data ck = Some (MkTs (Some l) (Some (sr_in m o))) ->
    lands LL (ec_src ck) 0 (Z.of_nat (tm_pos m + o)) -> lw_wf LL src -> lw_quiet LL src ->
    out = tar_resume SK F S SV src fuel (Some ck) (s0, []) v ->
    in_order i (snd (to_sink SK S SV out)) (match to_res SK S SV out with Ok _ => true | _ => false end).
  Proof.
    intros Hm He Hreg Ho Hidx Hent Hdata Hland Hwf Hqu ->.
    unfold tar_resume. unfold tar_point. rewrite Hdata.
    destruct (s_resume S src (ec_src ck)) as [src1 r1] eqn:Hres.
    pose proof (Hland _ _ _ Hwf Hqu Hres) as HR.
    assert (Hnil : in_order i [] false).
    { unfold in_order. splits; auto. exists 0%nat. split; [reflexivity|discriminate]. }
    destruct r1 as [z|er| |]; try contradiction; [|exact Hnil].
    destruct HR as (Hz & (m1 & Hat1) & Hq1 & _). cbn [sr_off Tar_proofs.sr_in].
    destruct (if z <? Z.of_nat (tm_pos m + o) then discard_by_read S drop_cb fuel src1 tt (Z.of_nat (tm_pos m + o) - z) else (src1, tt, Ok tt))
      as [[src2 u2] r2] eqn:Hdis.
    assert (Hd : match r2 with Ok _ => exists mm, lw_at LL src2 (tm_pos m + o) mm | Panic => False | _ => True end).
    { destruct (z <? Z.of_nat (tm_pos m + o)) eqn:Hlt.
      - pose proof (discard_quiet LL _ _ _ _ _ _ _ _ Hat1 Hq1 Hdis) as HD.
        destruct r2 as [u|e2| |]; auto.
        destruct HD as (m2 & H1 & _). exists m2.
        replace (tm_pos m + o)%nat with (Z.to_nat z + Z.to_nat (Z.of_nat (tm_pos m + o) - z))%nat by lia. exact H1.
      - injection Hdis as <- <- <-. exists m1. replace (tm_pos m + o)%nat with (Z.to_nat z) by lia. exact Hat1. }
    destruct r2 as [u|e2| |]; try contradiction; try exact Hnil.
    destruct Hd as (mm & Hat).
    destruct (lw_setssc _ _ _ LL _ (lw_at_wf _ _ _ LL _ _ _ Hat)) as (_ & T2 & _ & T4). specialize (T2 _ _ Hat).
    apply run_ev; [|exact Hidx]. right. exists m, e, o, mm, wo. splits; auto.
  Qed.
End Order.
