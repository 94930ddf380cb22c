(** Zip_proofs.v -- invariants of zip extraction. *)
From Verif Require Import Base Base_proofs Source Seek Decomp CodecSpec Contract Seek_proofs Decomp_proofs Drive SpoilSpec Stack_proofs
  Copier Sink Zip SinkSpec Settle_proofs ZipSpec.
From Coq Require Import Sorted.

(** Positions in an archive: entry index, bytes into the entry. *)
Definition pos : Type := nat * nat.
Definition ple (p q : pos) : Prop := (fst p < fst q)%nat \/ fst p = fst q /\ (snd p <= snd q)%nat.
Lemma ple_refl p : ple p p. Proof. right. auto. Qed.
Lemma ple_trans p q r : ple p q -> ple q r -> ple p r.
Proof. unfold ple. lia. Qed.
(** later, and not at the beginning of an entry *)
Definition plt (p q : pos) : Prop := (0 < snd q)%nat /\ ((fst p < fst q)%nat \/ fst p = fst q /\ (snd p < snd q)%nat).

Lemma goes_on_noerr {CK DT} (SV : saver CK DT) : saver_goes_on SV -> saver_noerr SV.
Proof. intros H v c. destruct (H v c) as (v' & Hv). eauto. Qed.

(** DiscardByRead on a quiet source, with any fuel. *)
Lemma discard_quiet {S D tm} (L : laws S D tm) : forall fuel st o m delta st' k r,
  lw_at L st o m -> lw_quiet L st -> discard_by_read S no_cb fuel st tt delta = (st', k, r) ->
  match r with
  | Ok _ => exists m', lw_at L st' (o + Z.to_nat delta) m' /\ lw_quiet L st' /\ (m' <= m)%nat /\ (lw_clean L st -> lw_clean L st')
  | Panic => False
  | _ => 0 < delta
  end.
Proof.
  induction fuel as [|f IH]; intros st o m delta st' k r Hat Hq; cbn [discard_by_read].
  - destruct (delta <=? 0) eqn:Hd; injection 1 as <- <- <-; [|lia].
    exists m. replace (o + Z.to_nat delta)%nat with o by lia. auto.
  - destruct (delta <=? 0) eqn:Hd.
    { injection 1 as <- <- <-. exists m. replace (o + Z.to_nat delta)%nat with o by lia. auto. }
    destruct (s_read S no_cb st tt (Z.to_nat (Z.min delta discard_buf))) as [[s1 k1] rr] eqn:Hr.
    assert (Hn : (0 < Z.to_nat (Z.min delta discard_buf))%nat) by (unfold discard_buf; lia).
    destruct (lw_read _ _ _ L _ _ _ _ _ _ _ _ _ _ Hat Hn Hr) as (evs & Hcalls & _ & Hgen & Hres).
    destruct evs as [|[c x] evs]; [|destruct (Hgen c x (or_introl eq_refl)); tauto].
    destruct rr as [d [e|]| |].
    + injection 1 as <- <- <-. lia.
    + destruct Hres as (Hdn & Hds & (m1 & Hat1 & Hm1 & _) & Hq1 & Hc1 & _). intros Hrec. destruct k1.
      specialize (IH _ _ _ _ _ _ _ Hat1 (Hq1 Hq) Hrec). destruct r as [u| | |]; auto; try lia.
      destruct IH as (m2 & H1 & H2 & H3 & H4). exists m2. splits; auto; [|lia].
      replace (o + Z.to_nat delta)%nat with (o + length d + Z.to_nat (delta - zlen d))%nat; [exact H1|].
      unfold zlen, discard_buf in *. lia.
    + destruct Hres as (c & []).
    + destruct Hres.
Qed.

Section ZipProofs.
  Context (A : bytes) (C : codec) (fuel0 : nat) (pol : bool) (ms : list zmember).
  Context (SK : sink) (L : sink_laws SK) (SV : saver (zck C fuel0) unit).
  Context (view0 : kl_loc L -> option node) (B : nat).
  Notation zck := (zck C fuel0).
  Notation zeck := (zeck C fuel0).
  Notation zx := (zx SK C fuel0 SV).
  Notation via := (zm_via C fuel0).
  Notation items := (zitems ms).
  Notation view := (kl_view L).
  Notation settled := (settled L items view0).
  Notation part := (part L items).
  Notation kstep := (kstep L items).
  Notation x_sink := (x_sink SK C fuel0 SV).
  Notation x_ck := (x_ck SK C fuel0 SV).
  Notation x_log := (x_log SK C fuel0 SV).
  Notation x_prog := (x_prog SK C fuel0 SV).
  Notation x_stop := (x_stop SK C fuel0 SV).
  Notation x_stoperr := (x_stoperr SK C fuel0 SV).
  Notation x_sv := (x_sv SK C fuel0 SV).

  Hypothesis Hvalid : storable L items.

  Definition is_store (m : zmember) : bool := zf_method (zm_file m) =? zip_store.
  (** the member's source never returns io.EOF together with data *)
  Definition zpolite (m : zmember) : bool := if is_store m then pol else negb (cd_eager C).

  (** The source of member [m], as seen through the laws [LL]. *)
  Record viafacts (m : zmember) (k : stk) (inj : sckpt (s_ck (stk_source k)) -> sckpt zck)
      (prj : sckpt zck -> sckpt (s_ck (stk_source k))) (LL : laws (stk_source k) (zm_data m) (zm_err m)) : Prop := {
    vf_late : lw_late LL = false;
    vf_bound : (lw_bound LL <= B)%nat;
    vf_polite : lw_polite LL = zpolite m;
    vf_spoil : forall sc sc', lw_ck LL (prj sc) -> spoilt k (prj sc) (prj sc') -> lands LL (Some (prj sc')) 0 (ck_off sc);
    vf_inj : forall c, lw_ck LL c -> lw_ck LL (prj (inj c));
    vf_off : forall c, ck_off (inj c) = ck_off c;
    vf_prj : forall c, ck_off (prj c) = ck_off c;
    vf_wf : forall io, io_ok A pol m io -> lw_wf LL (stk_new k (zi_section io (zm_off m) (zm_csize m)) 0 (zm_csize m));
    vf_quiet : forall io, io_ok A pol m io -> lw_quiet LL (stk_new k (zi_section io (zm_off m) (zm_csize m)) 0 (zm_csize m));
    vf_clean : forall io, io_ok A pol m io -> io_good io -> lw_clean LL (stk_new k (zi_section io (zm_off m) (zm_csize m)) 0 (zm_csize m)) }.

  Definition located (m : zmember) : Prop := kl_of L (zm_entry m) <> None.

  Definition gck_at (m : zmember) (k : stk) inj prj (sc : sckpt zck) : Prop :=
    exists LL, viafacts m k inj prj LL /\ lw_ck LL (prj sc).
  Definition via_at (m : zmember) (k : stk) inj prj : Prop := exists LL, viafacts m k inj prj LL.

  Definition gck (m : zmember) (sc : sckpt zck) : Prop :=
    if is_store m then gck_at m KSeek (inj_store C fuel0) (prj_store C fuel0) sc
    else gck_at m (zk_deflate C fuel0) (fun c => c) (fun c => c) sc.
  (** a genuine checkpoint of the source, or what is left of one *)
  Definition lgck (m : zmember) (w : nat) (sc : sckpt zck) : Prop :=
    exists sc0, gck m sc0 /\ (located m -> ck_off sc0 <= Z.of_nat w) /\ (sc = sc0 \/ zspoilt_src C fuel0 m sc0 sc).
  Definition mgood (m : zmember) : Prop :=
    match via m with
    | None => True
    | Some _ => if is_store m then via_at m KSeek (inj_store C fuel0) (prj_store C fuel0)
                else via_at m (zk_deflate C fuel0) (fun c => c) (fun c => c)
    end.
  Hypothesis Hms : Forall mgood ms.

  (** ** Checkpoints *)
  Definition cidx (c : zeck) : nat := Z.to_nat (ec_index c).
  Definition ckw (c : zeck) : nat :=
    match nth_error ms (cidx c) with
    | Some m => match via m with Some _ => Z.to_nat (ck_woff C fuel0 c) | None => 0%nat end
    | None => 0%nat
    end.
  Definition cpos (c : zeck) : pos := (cidx c, ckw c).

  (** well-formed: what does not depend on the sink *)
  Definition cshape (c : zeck) : Prop :=
    ec_index c = Z.of_nat (cidx c) /\
    ((ec_entry c = None /\ ec_src c = None /\ (cidx c <= length ms)%nat) \/
     exists m w, nth_error ms (cidx c) = Some m /\ ec_entry c = Some (set_woff (zm_entry m) (Z.of_nat w)) /\
       match via m with
       | Some _ => (w <= length (zm_data m))%nat /\ (~ located m -> w = 0%nat) /\
           match ec_src c with
           | Some sc => lgck m w sc
           | None => True
           end
       | None => ec_src c = None
       end).
  (** made by Save: source and writer positions agree; or else the source can
      be read up to the writer's position without meeting the end *)
  Definition tight (c : zeck) : Prop :=
    match ec_src c with
    | Some sc => ck_woff C fuel0 c <= ck_off sc /\ exists m, nth_error ms (cidx c) = Some m /\ gck m sc
    | None => ck_woff C fuel0 c <= 0
    end \/
    exists m, nth_error ms (cidx c) = Some m /\ (via m = None \/ zpolite m = true).
  Definition zgood (st : k_st SK) (c : zeck) : Prop :=
    cshape c /\ settled (cidx c) st /\ part (cidx c) (ckw c) st.

  Lemma zgood_step j w st st' c : kstep j w st st' -> ple (cpos c) (j, w) -> zgood st c -> zgood st' c.
  Proof.
    intros Hk Hp (S1 & S2 & S3). unfold zgood. unfold ple, cpos in Hp. cbn in Hp. splits; auto.
    - eapply kstep_settled; eauto. lia.
    - eapply kstep_part; eauto.
  Qed.

  Lemma kstep_le j w w' st st' : (w' <= w)%nat -> kstep j w st st' -> kstep j w' st st'.
  Proof.
    intros Hw (e & nd & H1 & H2 & H3 & H4 & H5). exists e, nd. splits; auto.
    intros; apply H5; auto; lia.
  Qed.

  Lemma part_le j w w' st : (w' <= w)%nat -> part j w st -> part j w' st.
  Proof.
    intros Hw H e D l H1 H2 H3 H4. destruct (H e D l H1 H2 H3 ltac:(lia)) as (c & E1 & E2 & E3).
    exists c. splits; auto; [lia|]. rewrite <- (Nat.min_l w' w) by lia. rewrite <- !firstn_firstn. congruence.
  Qed.

  (** ** The state of a run, seen from position [p], started at [p0], while
      the user also holds the checkpoints [prior]. *)
  Context (p0 q0 : pos) (prior : list zeck).

  (** how far a checkpoint is by its source *)
  Definition smeas (c : zeck) : pos := (cidx c, match ec_src c with Some sc => Z.to_nat (ck_off sc) | None => 0%nat end).

  Definition doneZ (i : nat) : Z := sum_sizes (firstn i (zfiles ms)).
  Definition frac (q : pos) : option Q :=
    let a := wrap64 (doneZ (fst q) + Z.of_nat (snd q)) in
    match sum_sizes (zfiles ms) with Z0 => None | Zpos p => Some (a # p)%Q | Zneg p => Some (- a # p)%Q end.
  Definition inbounds (q : pos) : Prop :=
    exists m, nth_error ms (fst q) = Some m /\ (snd q <= length (zm_data m))%nat.

  Definition cks (x : zx) : list zeck := rev (map fst (x_log x)) ++ prior.
  Definition csorted : list zeck -> Prop := StronglySorted (fun c1 c2 => ple (cpos c2) (cpos c1)).

  (** what is known about each call of Save *)
  Definition logok (cs : zeck * k_st SK) : Prop :=
    let '(c, s) := cs in
    exists m k w sc, nth_error ms (cidx c) = Some m /\ via m = Some k /\
      ec_entry c = Some (set_woff (zm_entry m) (Z.of_nat w)) /\ ec_src c = Some sc /\ (tight c /\ gck m sc /\ (located m -> ck_off sc = Z.of_nat w) /\ Z.of_nat w <= ck_off sc) /\
      ec_prog c = frac (cidx c, w) /\ inbounds (cidx c, w) /\ ckw c = w /\
      zgood s c /\
      forall l, kl_of L (zm_entry m) = Some l -> exists s0 wr, kl_inv L s0 /\ kl_open L s0 wr (Some l) w /\ k_sync SK s0 wr = (s, None).

  Record ZI (p : pos) (x : zx) : Prop := {
    zi_inv : kl_inv L (x_sink x);
    zi_settled : settled (fst p) (x_sink x);
    zi_part : part (fst p) (snd p) (x_sink x);
    zi_lin : Forall (fun c => zgood (x_sink x) c /\ ple (cpos c) p) (cks x);
    zi_sorted : csorted (cks x);
    zi_log : Forall logok (x_log x);
    zi_prog : exists ps, x_prog x = map frac ps /\ StronglySorted ple ps /\
      Forall (fun q => ple p0 q /\ ple q p /\ inbounds q) ps;
    zi_p0 : ple p0 p;
    zi_stop : x_stop x = true -> x_stoperr x = true;
    zi_fwd : Forall (fun cs => plt q0 (smeas (fst cs))) (x_log x);
    zi_stopped : x_stoperr x = true -> x_log x <> [] }.

  (** the sink did something *)
  Lemma ZI_sink p x x' : ZI p x -> kstep (fst p) (snd p) (x_sink x) (x_sink x') ->
    x_log x' = x_log x -> x_prog x' = x_prog x -> x_stop x' = x_stop x -> x_stoperr x' = x_stoperr x -> ZI p x'.
  Proof.
    intros [I1 I2 I3 I4 I5 I6 I7 I8 I9 I10 I11] Hk H1 H2 H3 H4.
    assert (Hc : cks x' = cks x) by (unfold cks; rewrite H1; reflexivity).
    split; rewrite ?Hc, ?H1, ?H2, ?H3, ?H4; auto.
    - destruct Hk as (e & nd & _ & Hi & _). exact Hi.
    - eapply kstep_settled; eauto.
    - eapply kstep_part; eauto.
    - eapply Forall_impl; [|exact I4]. intros c [G1 G2]. split; [|exact G2]. eapply zgood_step; eauto.
  Qed.

  (** the position advanced *)
  Lemma ZI_pos p q x : ZI p x -> ple p q -> settled (fst q) (x_sink x) -> part (fst q) (snd q) (x_sink x) -> ZI q x.
  Proof.
    intros [I1 I2 I3 I4 I5 I6 I7 I8 I9 I10 I11] Hpq Hs Hp. split; auto.
    - eapply Forall_impl; [|exact I4]. intros c [G1 G2]. split; [exact G1|]. eapply ple_trans; eauto.
    - destruct I7 as (ps & P1 & P2 & P3). exists ps. splits; auto.
      eapply Forall_impl; [|exact P3]. intros r (R1 & R2 & R3). splits; auto. eapply ple_trans; eauto.
    - eapply ple_trans; eauto.
  Qed.

  Lemma ZI_same p x x' : ZI p x -> x_sink x' = x_sink x ->
    x_log x' = x_log x -> x_prog x' = x_prog x -> x_stoperr x' = x_stoperr x -> (x_stop x' = true -> x_stoperr x' = true) -> ZI p x'.
  Proof.
    intros [I1 I2 I3 I4 I5 I6 I7 I8 I9 I10 I11] H0 H1 H2 H4 H3.
    assert (Hc : cks x' = cks x) by (unfold cks; rewrite H1; reflexivity).
    split; rewrite ?Hc, ?H0, ?H1, ?H2, ?H4; auto. rewrite <- H4. exact H3.
  Qed.

  (** ** Copying one file through its source *)
  Definition saver_ok : Prop := saver_noerr SV.
  (** asked to stop in between, or not *)
  Definition stops (x x' : zx) : Prop :=
    x_stop x' = x_stop x /\ x_stoperr x' = x_stoperr x \/
    ~ saver_goes_on SV /\ x_stop x' = true /\ x_stoperr x' = true.
  Lemma stops_trans x y z : stops x y -> stops y z -> stops x z.
  Proof. unfold stops. intuition congruence. Qed.

  Section Copy.
    Context (j : nat) (m : zmember) (Hj : nth_error ms j = Some m) (Hkind : en_kind (zm_entry m) = EkFile).
    Context (k : stk) (inj : sckpt (s_ck (stk_source k)) -> sckpt zck) (prj : sckpt zck -> sckpt (s_ck (stk_source k))).
    Context (Hvia : via m <> None) (Hgck : forall sc, gck_at m k inj prj sc -> gck m sc).
    Context (LL : laws (stk_source k) (zm_data m) (zm_err m)) (VF : viafacts m k inj prj LL).
    Context (w : k_w SK).
    Notation D := (zm_data m).
    Notation S := (stk_source k).
    Notation E := (zip_cenv SK C fuel0 SV S inj w (doneZ j) (sum_sizes (zfiles ms))).
    Notation onsave := (zip_on_save SK C fuel0 SV inj w (doneZ j) (sum_sizes (zfiles ms))).
    Notation writing := (writing L items view0 j (zm_entry m) D w).

    Lemma item_j : nth_error items j = Some (zm_entry m, NFile D).
    Proof. unfold zitems. rewrite (map_nth_error _ _ _ Hj). unfold zm_item, zm_node. rewrite Hkind. reflexivity. Qed.

    Definition W (o : nat) : nat := match kl_of L (zm_entry m) with Some _ => o | None => 0%nat end.
    Lemma W_le o : (W o <= o)%nat. Proof. unfold W. destruct (kl_of L (zm_entry m)); lia. Qed.
    Lemma W_loc o : located m -> W o = o.
    Proof. unfold located, W. destruct (kl_of L (zm_entry m)); congruence. Qed.
    Lemma W_unloc o : ~ located m -> W o = 0%nat.
    Proof. unfold located, W. destruct (kl_of L (zm_entry m)); [|reflexivity]. intros H. exfalso. apply H. discriminate. Qed.
    Lemma W_mono o o' : (o <= o')%nat -> (W o <= W o')%nat.
    Proof. unfold W. destruct (kl_of L (zm_entry m)); lia. Qed.

    Record CI (o : nat) (x : zx) : Prop := {
      ci_idx : ec_index (x_ck x) = Z.of_nat j;
      ci_entry : ec_entry (x_ck x) = Some (set_woff (zm_entry m) (Z.of_nat (W o)));
      ci_len : (o <= length D)%nat;
      ci_src : match ec_src (x_ck x) with
               | Some sc => lgck m (W o) sc
               | None => True
               end }.

    Lemma CI_shape o x : CI o x -> cshape (x_ck x) /\ cpos (x_ck x) = (j, W o).
    Proof.
      intros [C1 C2 C3 C4].
      assert (Hi : cidx (x_ck x) = j) by (unfold cidx; rewrite C1; lia).
      split.
      - unfold cshape. rewrite Hi. split; [exact C1|]. right. exists m, (W o). splits; auto.
        destruct (via m); [|congruence]. splits; auto; [pose proof (W_le o); lia|apply W_unloc].
      - unfold cpos, ckw, ck_woff. rewrite Hi, Hj, C2. destruct (via m); [|congruence].
        cbn [en_woff set_woff]. rewrite Nat2Z.id. reflexivity.
    Qed.

    Lemma writing_W o st : writing o st -> (o <= length D)%nat -> part j (W o) st.
    Proof. intros H Ho. eapply part_le; [apply W_le|]. eapply writing_part; eauto using item_j. Qed.

    (** A call of OnSave. *)
    Lemma on_save_ok o x sc x' r : ZI (j, W o) x -> CI o x -> writing o (x_sink x) ->
      lw_ck LL sc -> ck_off sc = Z.of_nat o -> plt q0 (j, o) -> onsave sc x = (x', r) ->
      ZI (j, W o) x' /\ CI o x' /\ writing o (x_sink x') /\ r <> CPanic /\ r <> CErr EEof /\
      (kl_clean L (x_sink x) -> saver_ok -> kl_clean L (x_sink x') /\ r = COk /\ stops x x').
    Proof.
      intros HZ HC Hw Hck Hoff Hq0. unfold zip_on_save.
      assert (Hg : gck m (inj sc)).
      { apply Hgck. exists LL. split; [exact VF|]. apply (vf_inj _ _ _ _ _ VF). exact Hck. }
      assert (Hle : located m -> ck_off (inj sc) <= Z.of_nat (W o)).
      { intros Hl. rewrite (vf_off _ _ _ _ _ VF), Hoff, (W_loc o Hl). lia. }
      destruct (k_sync SK (x_sink x) w) as [s' r1] eqn:Hsync.
      destruct (sync_step _ _ _ Hvalid _ _ _ item_j _ _ _ _ _ _ Hw Hsync) as (Hks & Hw' & Hcl).
      pose proof (kstep_le _ _ (W o) _ _ (W_le o) Hks) as Hks'.
      destruct HC as [C1 C2 C3 C4].
      destruct r1 as [e|].
      - injection 1 as <- <-. splits; auto.
        + eapply (ZI_sink (j, W o)); [exact HZ|exact Hks'|reflexivity..].
        + split; cbn; auto. exists (inj sc). auto.
        + discriminate.
        + destruct e; cbn; discriminate.
        + intros Hcs. destruct (Hcl Hcs). discriminate.
      - cbn [ec_src ec_index ec_entry ec_data].
        set (c2 := MkEck (Some (inj sc)) (ec_index (x_ck x)) (ec_entry (x_ck x)) (zip_progress _ _ _ _ _) (ec_data (x_ck x))).
        destruct (sv_save SV (x_sv x) c2) as [v' rs] eqn:Hsave.
        assert (HC2 : forall v b1 b2, CI o (MkZx SK C fuel0 SV s' c2 v b1 b2 (x_prog x) (x_log x ++ [(c2, s')]))).
        { intros. split; cbn; auto. exists (inj sc). auto. }
        assert (Hi : cidx c2 = j) by (change (cidx c2) with (Z.to_nat (ec_index (x_ck x))); rewrite C1; apply Nat2Z.id).
        pose proof (CI_shape o _ (HC2 v' false false)) as [Hsh Hps]. cbn [Zip.x_ck] in Hsh, Hps.
        assert (Hgood : zgood s' c2).
        { unfold zgood. rewrite Hi. replace (ckw c2) with (W o) by (unfold cpos in Hps; congruence). splits; auto.
          - exact (proj1 (proj2 Hw')).
          - apply writing_W; assumption. }
        assert (Hsm : smeas c2 = (j, o)).
        { unfold smeas. rewrite Hi. cbn [ec_src c2]. rewrite (vf_off _ _ _ _ _ VF), Hoff, Nat2Z.id. reflexivity. }
        assert (HI : forall v b1 b2, (b1 = true -> b2 = true) ->
           ZI (j, W o) (MkZx SK C fuel0 SV s' c2 v b1 b2 (x_prog x) (x_log x ++ [(c2, s')]))).
        { intros v b1 b2 Hb. destruct HZ as [I1 I2 I3 I4 I5 I6 I7 I8 I9 I10 I11].
          assert (Hcks : forall v b1 b2 pr, cks (MkZx SK C fuel0 SV s' c2 v b1 b2 pr (x_log x ++ [(c2, s')])) = c2 :: cks x).
          { intros. unfold cks. cbn [Zip.x_log]. rewrite map_app, rev_app_distr. reflexivity. }
          assert (Hlin : Forall (fun c => zgood s' c /\ ple (cpos c) (j, W o)) (cks x)).
          { eapply Forall_impl; [|exact I4]. intros c [G1 G2]. split; [|exact G2]. eapply zgood_step; eauto. }
          split; rewrite ?Hcks; cbn [Zip.x_sink Zip.x_log Zip.x_prog Zip.x_stop Zip.x_stoperr]; auto.
          - exact (proj1 Hw').
          - exact (proj1 (proj2 Hw')).
          - apply writing_W; assumption.
          - constructor; [|exact Hlin]. split; [exact Hgood|]. rewrite Hps. apply ple_refl.
          - constructor; [exact I5|]. rewrite Hps. eapply Forall_impl; [|exact Hlin]. intros c [_ G]. exact G.
          - apply Forall_app. split; [exact I6|]. constructor; [|constructor].
            destruct (via m) as [k0|] eqn:Hv; [|congruence].
            exists m, k0, (W o), (inj sc). rewrite Hi.
            assert (Hwf : ck_woff C fuel0 c2 = Z.of_nat (W o)) by (change (ck_woff C fuel0 c2) with (match ec_entry (x_ck x) with Some e => en_woff e | None => 0 end); rewrite C2; reflexivity).
            splits; auto.
            + left. rewrite Hwf, Hi. cbn [ec_src c2]. split; [|exists m; auto]. rewrite (vf_off _ _ _ _ _ VF), Hoff. pose proof (W_le o). lia.
            + intros Hloc. rewrite (vf_off _ _ _ _ _ VF), Hoff. unfold W. unfold located in Hloc. destruct (kl_of L (zm_entry m)); [reflexivity|contradiction].
            + rewrite (vf_off _ _ _ _ _ VF), Hoff. pose proof (W_le o). lia.
            + cbn [ec_prog c2]. unfold zip_progress, frac. unfold ck_woff. cbn [ec_entry fst snd]. rewrite C2. reflexivity.
            + exists m. split; [exact Hj|]. cbn. pose proof (W_le o). lia.
            + unfold cpos in Hps. congruence.
            + intros l Hl. exists (x_sink x), w. destruct Hw as (_ & _ & Hw). rewrite Hl in Hw.
              split; [exact I1|]. split; [|exact Hsync]. unfold W. rewrite Hl. tauto.
          - apply Forall_app. split; [exact I10|]. constructor; [|constructor]. cbn [fst]. rewrite Hsm. exact Hq0.
          - intros _. destruct (x_log x); discriminate. }
        destruct rs as [[|]|e]; injection 1 as <- <-; splits; auto; try discriminate.
        + intros Hcs _. destruct (Hcl Hcs). cbn. splits; auto. right. cbn. splits; auto.
          intros Hgo. destruct (Hgo (x_sv x) c2) as (? & Hs'). pose proof (eq_trans (eq_sym Hsave) Hs') as Hx. discriminate Hx.
        + eapply HI. exact (zi_stop _ _ HZ).
        + intros Hcs _. destruct (Hcl Hcs). cbn. splits; auto. left. auto.
        + eapply HI. exact (zi_stop _ _ HZ).
        + destruct e; cbn; discriminate.
        + intros _ Hs. destruct (Hs (x_sv x) c2) as (? & ? & Hs'). pose proof (eq_trans (eq_sym Hsave) Hs') as Hx. discriminate Hx.
    Qed.

    (** What is known when the copy loop is done. *)
    Definition copied (x : zx) (o : nat) (x' : zx) (o' : nat) : Prop :=
      (o <= o')%nat /\ ZI (j, W o') x' /\ CI o' x' /\ writing o' (x_sink x') /\ ec_data (x_ck x') = ec_data (x_ck x).

    Lemma on_save_data sc x x' r : onsave sc x = (x', r) -> ec_data (x_ck x') = ec_data (x_ck x).
    Proof.
      unfold zip_on_save. destruct (k_sync SK (x_sink x) w) as [s' [e|]]; [injection 1 as <- _; reflexivity|].
      destruct (sv_save _ _ _) as [v' [[|]|e]]; injection 1 as <- _; reflexivity.
    Qed.


    Lemma copy_read src x o mm n src1 x1 rr : (0 < n)%nat ->
      lw_at LL src o mm -> ZI (j, W o) x -> CI o x -> writing o (x_sink x) ->
      (lw_quiet LL src \/ plt q0 (j, o)) ->
      s_read S onsave src x n = (src1, x1, rr) ->
      ZI (j, W o) x1 /\ CI o x1 /\ writing o (x_sink x1) /\ ec_data (x_ck x1) = ec_data (x_ck x) /\
      match rr with
      | RRet d re =>
          d = slice D o (length d) /\ (o + length d <= length D)%nat /\
          (exists m1, lw_at LL src1 (o + length d) m1 /\ (m1 <= mm)%nat /\ (re = None -> (m1 < mm)%nat)) /\
          (re = Some EEof -> (o + length d)%nat = length D /\ zm_err m = EEof) /\
          (re = None -> lw_quiet LL src -> d <> []) /\
          (lw_clean LL src -> kl_clean L (x_sink x) -> saver_ok -> zm_err m = EEof ->
             lw_clean LL src1 /\ kl_clean L (x_sink x1) /\ stops x x1 /\
             (re = None \/ re = Some EEof))
      | _ => False
      end.
    Proof.
      intros Hn Hat HZ HC Hw Hqq Hr.
      assert (Hfwd : forall d, rr = RRet d None -> lw_quiet LL src -> d <> []).
      { intros d -> Hq. exact (lw_fwd _ _ _ LL _ _ _ _ _ _ _ _ _ _ Hat Hq Hn Hr). }
      destruct (lw_read _ _ _ LL _ _ _ _ _ _ _ _ _ _ Hat Hn Hr) as (evs & Hcalls & Hlen & Hgen & Hres).
      pose proof (lw_tm _ _ _ LL) as Htm.
      destruct evs as [|[c x0] [|? ?]]; [| |cbn in Hlen; lia].
      - cbn in Hcalls. subst x1.
        destruct rr as [d re| |]; [|destruct Hres as (? & [])|destruct Hres].
        destruct Hres as (Hdn & Hds & (m1 & Hat1 & Hm1 & Hm1') & _ & Hcl1 & _ & He).
        splits; auto.
        + exact (proj1 (lw_at_len _ _ _ LL _ _ _ Hat1)).
        + eauto.
        + intros ->. destruct He as [(? & ? & ?)|[(? & [])|(? & ? & ?)]]; [auto|congruence].
        + intros ->. auto.
        + intros Hc1 Hc2 _ Ht. splits; auto; [left; auto|]. destruct re as [e|]; [right|left; reflexivity].
          destruct He as [(? & ? & ?)|[(? & [])|(? & ? & ?)]]; [congruence|tauto].
      - cbn in Hcalls. destruct Hcalls as (k1 & Hcall & ->).
        destruct (Hgen c x0 (or_introl eq_refl)) as [Hnq Hck].
        assert (Hq0 : plt q0 (j, o)) by (destruct Hqq; [contradiction|assumption]).
        pose proof (on_save_data _ _ _ _ Hcall) as Hdata.
        destruct rr as [d re| |]; [| |destruct Hres].
        + destruct Hres as (Hdn & Hds & (m1 & Hat1 & Hm1 & Hm1') & _ & Hcl1 & Hev & He).
          destruct (Hev c x0 (or_introl eq_refl)) as [_ Hoff]. rewrite (vf_late _ _ _ _ _ VF) in Hoff.
          destruct Hoff as [Hoff|[? _]]; [|discriminate].
          destruct (on_save_ok o x c k1 x0 HZ HC Hw Hck Hoff Hq0 Hcall) as (Z1 & C1 & W1 & _ & R2 & R3).
          splits; auto.
          * exact (proj1 (lw_at_len _ _ _ LL _ _ _ Hat1)).
          * eauto.
          * intros ->. destruct He as [(? & ? & ?)|[(c' & [He|[]])|(? & ? & ?)]]; [auto|congruence|congruence].
          * intros Hc1 Hc2 Hs Ht. destruct (R3 Hc2 Hs) as (K1 & -> & K3). splits; auto.
            destruct re as [e|]; [right|left; reflexivity].
            destruct He as [(? & ? & ?)|[(c' & [He|[]])|(? & ? & ?)]]; [congruence|congruence|tauto].
        + destruct Hres as (c' & [Hc'|[]]). injection Hc' as <- ->. exfalso.
          revert Hcall. unfold zip_on_save. destruct (k_sync SK (x_sink x) w) as [s' [e|]]; [discriminate|].
          destruct (sv_save _ _ _) as [v' [[|]|e]]; discriminate.
    Qed.

    Lemma copy_buf_pos : (0 < copy_buf)%nat.
    Proof. exact (proj1 (Nat.ltb_lt 0 copy_buf) eq_refl). Qed.

    Lemma copy_loop_ok : forall fuel src x o mm pc src' x' r,
      lw_at LL src o mm -> ZI (j, W o) x -> CI o x -> writing o (x_sink x) ->
      ple q0 (j, o) -> (lw_quiet LL src \/ plt q0 (j, o)) ->
      copy_loop E fuel (src, x) pc = ((src', x'), r) ->
      exists o', copied x o x' o' /\
        match r with
        | Ok _ => x_stop x' = true \/ (o' = length D /\ zm_err m = EEof)
        | Panic => False
        | _ => True
        end /\
        (lw_clean LL src -> kl_clean L (x_sink x) -> saver_ok -> zm_err m = EEof -> (mm < fuel)%nat ->
           r = Ok tt /\ kl_clean L (x_sink x') /\ stops x x').
    Proof.
      assert (Hstop : forall x src o src' x' r, ZI (j, W o) x -> CI o x -> writing o (x_sink x) -> ce_stopped E (src, x) = true ->
         ((src, x), Ok tt) = ((src', x'), r) ->
         exists o', copied x o x' o' /\ match r with Ok _ => x_stop x' = true \/ (o' = length D /\ zm_err m = EEof) | Panic => False | _ => True end).
      { intros x src o src' x' r HZ HC Hw Hs. injection 1 as <- <- <-. exists o. split; [|left; exact Hs]. unfold copied. splits; auto. }
      induction fuel as [|f IH]; intros src x o mm pc src' x' r Hat HZ HC Hw Hple Hqq; cbn [copy_loop].
      - destruct (ce_stopped E (src, x)) eqn:Hst.
        + intros Heq. destruct (Hstop _ _ _ _ _ _ HZ HC Hw Hst Heq) as (o' & H1 & H2). exists o'. splits; auto. intros; lia.
        + injection 1 as <- <- <-. exists o. unfold copied. splits; auto. intros; lia.
      - destruct (ce_stopped E (src, x)) eqn:Hst.
        { intros Heq. destruct (Hstop _ _ _ _ _ _ HZ HC Hw Hst Heq) as (o' & H1 & H2). exists o'. splits; auto.
          intros K1 K2 K3 K4 K5. injection Heq as <- <- <-. splits; auto. left. auto. }
        unfold copy_step. cbn [ce_read zip_cenv fst snd].
        destruct (s_read S onsave src x copy_buf) as [[src1 x1] rr] eqn:Hr.
        destruct (copy_read src x o mm _ src1 x1 rr copy_buf_pos Hat HZ HC Hw Hqq Hr) as (Z1 & C1 & W1 & Hdata1 & Hrr).
        destruct rr as [d re| |]; [|destruct Hrr..].
        destruct Hrr as (Hd & Hlen & (m1 & Hat1 & Hm1 & Hm1') & Heof & Hdne & Hlive).
        destruct (k_write SK (x_sink x1) w d) as [s2 [[n adv] ew]] eqn:Hwr.
        destruct (write_step _ _ _ Hvalid _ _ _ item_j _ eq_refl Hkind _ _ _ _ _ _ _ _ W1 Hd Hlen Hwr)
          as (Hks & Hn & Hnone & Hcl & Hadv & Hw2).
        set (x2 := zx_ck SK C fuel0 SV (zx_sink SK C fuel0 SV x1 s2) (ck_set_woff C fuel0 (x_ck x1) (ck_woff C fuel0 (x_ck x1) + adv))).
        assert (Hsink2 : x_sink x2 = s2) by reflexivity.
        assert (HWn : (W o <= W (o + n))%nat) by (apply W_mono; lia).
        assert (C2 : CI (o + n) x2).
        { destruct C1 as [D1 D2 D3 D4]. split.
          - exact D1.
          - change (ec_entry (x_ck x2)) with (option_map (fun e => set_woff e (ck_woff C fuel0 (x_ck x1) + adv)) (ec_entry (x_ck x1))).
            unfold ck_woff. rewrite D2. cbn [option_map en_woff set_woff]. f_equal. unfold set_woff at 1 2. cbn. unfold set_woff. f_equal.
            rewrite Hadv. unfold W. destruct (kl_of L (zm_entry m)); lia.
          - lia.
          - change (ec_src (x_ck x2)) with (ec_src (x_ck x1)). destruct (ec_src (x_ck x1)) as [sc|]; [|exact D4].
            destruct D4 as (sc0 & D4 & D5 & D6). exists sc0. split; [exact D4|]. split; [|exact D6]. intros Hl. specialize (D5 Hl). lia. }
        assert (Z2 : ZI (j, W (o + n)) x2).
        { eapply (ZI_pos (j, W o)).
          - eapply (ZI_sink (j, W o) x1); [exact Z1|exact (kstep_le _ _ _ _ _ (W_le o) Hks)|reflexivity..].
          - right. split; [reflexivity|exact HWn].
          - exact (proj1 (proj2 Hw2)).
          - apply writing_W; [exact Hw2|exact (ci_len _ _ C2)]. }
        rewrite <- Hsink2 in Hw2.
        assert (HW : ce_write E (src1, x1) d = ((src1, x2), (n, ew))) by (cbn [ce_write zip_cenv fst snd]; rewrite Hwr; reflexivity).
        rewrite HW. clear HW.
        assert (Hd2 : ec_data (x_ck x2) = ec_data (x_ck x)) by exact Hdata1.
        destruct ew as [e|].
        { injection 1 as <- <- <-. exists (o + n)%nat. split; [unfold copied; splits; auto; lia|]. split; [exact Logic.I|].
          intros K1 K2 K3 K5 K6. destruct (Hlive K1 K2 K3 K5) as (_ & M2 & _). destruct (Hcl M2). discriminate. }
        rewrite (Hnone eq_refl) in *.
        set (x3 := if pc + Z.of_nat (length d) >? progress_threshold then _ else _).
        assert (H3 : ZI (j, W (o + length d)) (snd x3) /\ CI (o + length d) (snd x3) /\ x_sink (snd x3) = s2 /\ fst x3 = src1 /\
           ec_data (x_ck (snd x3)) = ec_data (x_ck x) /\ x_stop (snd x3) = x_stop x1 /\ x_stoperr (snd x3) = x_stoperr x1).
        { subst x3. destruct (pc + Z.of_nat (length d) >? progress_threshold); [|splits; auto].
          cbn [ce_emit zip_cenv fst snd]. splits; auto.
          - destruct Z2 as [I1 I2 I3 I4 I5 I6 I7 I8 I9 I10 I11]. split; auto.
            destruct I7 as (ps & P1 & P2 & P3). exists (ps ++ [(j, W (o + length d))]). splits.
            + cbn [Zip.x_prog]. rewrite map_app. rewrite <- P1. f_equal. cbn [map]. f_equal.
              unfold zip_progress, frac, ck_woff. rewrite (ci_entry _ _ C2). reflexivity.
            + clear -P2 P3. induction ps as [|p ps IHp]; [repeat constructor|].
              inversion P2; subst. inversion P3; subst. cbn. constructor; [auto|].
              apply Forall_app. split; [assumption|]. constructor; [tauto|constructor].
            + apply Forall_app. split; [exact P3|]. constructor; [|constructor]. splits; [exact I8|apply ple_refl|].
              exists m. split; [exact Hj|]. cbn. pose proof (W_le (o + length d)). lia.
          - destruct C2 as [E1 E2 E3 E4]. split; assumption. }
        destruct x3 as [src3 x3]. cbn [fst snd] in H3. destruct H3 as (Z3 & C3 & Hs3 & -> & Hd3 & Hst3 & Hse3).
        assert (Hw3 : writing (o + length d) (x_sink x3)) by (rewrite Hs3; exact Hw2).
        destruct re as [re|].
        { assert (Hre : ((src1, x3), match re with EEof => inr (Ok tt) | _ => inr (Err (with_stack re)) end) =
             (match re with EEof => ((src1, x3), @inr Z _ (Ok tt)) | _ => ((src1, x3), inr (Err (with_stack re))) end)) by (destruct re; reflexivity).
          intros Heq.
          assert (Hx : src' = src1 /\ x' = x3 /\ r = match re with EEof => Ok tt | _ => Err (with_stack re) end).
          { destruct re; injection Heq as <- <- <-; auto. }
          destruct Hx as (-> & -> & ->). exists (o + length d)%nat. split; [unfold copied; splits; auto; lia|]. split.
          - destruct re; auto.
          - intros K1 K2 K3 K5 K6. destruct (Hlive K1 K2 K3 K5) as (_ & M2 & M3 & [M5|M5]); [discriminate|].
            injection M5 as ->. splits; auto; [rewrite Hs3; exact (proj1 (Hcl M2))|].
            eapply stops_trans; [exact M3|]. left. auto. }
        cbn [ce_should ce_want zip_cenv fst snd].
        destruct (sv_should SV (x_sv x3) (zlen d)) as [v4 b] eqn:Hsh.
        set (x4 := zx_sv SK C fuel0 SV x3 v4).
        assert (Z4 : ZI (j, W (o + length d)) x4) by (eapply ZI_same; [exact Z3|reflexivity..|exact (zi_stop _ _ Z3)]).
        assert (C4 : CI (o + length d) x4) by (destruct C3 as [E1 E2 E3 E4]; split; assumption).
        set (sx := if b then _ else _).
        assert (H5 : snd sx = x4 /\ lw_at LL (fst sx) (o + length d) m1 /\ (lw_clean LL src1 -> lw_clean LL (fst sx))).
        { subst sx. destruct b; cbn [fst snd]; splits; auto.
          - exact (proj1 (lw_want _ _ _ LL _ _ _ Hat1)).
          - exact (proj2 (lw_want _ _ _ LL _ _ _ Hat1)). }
        destruct sx as [src5 x5]. cbn [fst snd] in H5. destruct H5 as (-> & Hat5 & Hcl5).
        assert (Hp5 : plt q0 (j, (o + length d)%nat)).
        { destruct Hqq as [Hq|Hq]; [|unfold plt in *; cbn [fst snd] in *; lia].
          assert (d <> []) by auto. destruct d; [congruence|]. unfold plt, ple in *. cbn [fst snd length] in *. lia. }
        assert (Hp6 : ple q0 (j, (o + length d)%nat)) by (unfold plt, ple in *; cbn [fst snd] in *; lia).
        intros Hrec. destruct (IH _ _ _ _ _ _ _ _ Hat5 Z4 C4 Hw3 Hp6 (or_intror Hp5) Hrec) as (o' & Hcp & Hres & Hl').
        exists o'. split.
        { destruct Hcp as (Q1 & Q2 & Q3 & Q4 & Q5). unfold copied. splits; auto; [lia|]. rewrite Q5. exact Hd3. }
        split; [exact Hres|].
        intros K1 K2 K3 K5 K6. destruct (Hlive K1 K2 K3 K5) as (M1 & M2 & M3 & _).
        specialize (Hm1' eq_refl).
        destruct Hl' as (R1 & R2 & R3); auto.
        + change (x_sink x4) with (x_sink x3). rewrite Hs3. exact (proj1 (Hcl M2)).
        + lia.
        + splits; auto. eapply stops_trans; [exact M3|]. eapply stops_trans; [|exact R3]. left. auto.
    Qed.
  End Copy.

  (** ** One entry *)
  Definition epost (j : nat) (m : zmember) (x x' : zx) (r : res unit) : Prop :=
    exists w', ZI (j, w') x' /\ cshape (x_ck x') /\ cpos (x_ck x') = (j, w') /\
    match r with
    | Ok _ => x_stoperr x' = true \/ (settled (Datatypes.S j) (x_sink x') /\ (via m <> None -> zm_err m = EEof))
    | Panic => False
    | _ => True
    end.
  Definition estops (x x' : zx) : Prop :=
    x_stoperr x' = x_stoperr x \/ ~ saver_goes_on SV /\ x_stoperr x' = true.
  Definition elive (fuel : nat) (m : zmember) (io : zio) (c : zeck) : Prop :=
    saver_ok /\ (B < fuel)%nat /\ Z.odd (zf_flags (zm_file m)) = false /\ io_good io /\
    (via m <> None -> zm_err m = EEof) /\ (en_kind (zm_entry m) = EkSymlink -> kl_vlink L (zm_entry m) (zm_data m)) /\
    tight c.

  Lemma via_kind m k : via m = Some k -> en_kind (zm_entry m) = EkFile.
  Proof. unfold zm_via. destruct (en_kind (zm_entry m)); congruence. Qed.

  (** the source of [c] will begin reading no earlier than [q0] *)
  Definition qok (j : nat) (m : zmember) (c : zeck) : Prop :=
    ple q0 (cpos c) \/ exists sc, ec_src c = Some sc /\ gck m sc /\ ple q0 (j, Z.to_nat (ck_off sc)).
  Lemma zip_copy_ok j m k inj prj fuel io x x' r w0 :
    nth_error ms j = Some m -> via m <> None -> (forall sc, gck_at m k inj prj sc <-> gck m sc) ->
    (forall sc sc', zspoilt_src C fuel0 m sc sc' -> spoilt k (prj sc) (prj sc')) -> via_at m k inj prj ->
    io_ok A pol m io ->
    ec_index (x_ck x) = Z.of_nat j -> ec_entry (x_ck x) = Some (set_woff (zm_entry m) (Z.of_nat w0)) ->
    cshape (x_ck x) -> ZI (j, w0) x -> qok j m (x_ck x) ->
    zip_copy SK C fuel0 SV fuel k inj prj (zi_section io (zm_off m) (zm_csize m)) (zm_csize m) (doneZ j) (sum_sizes (zfiles ms))
      (set_woff (zm_entry m) (Z.of_nat w0)) x = (x', r) ->
    epost j m x x' r /\
    (elive fuel m io (x_ck x) -> kl_clean L (x_sink x) -> r = Ok tt /\ kl_clean L (x_sink x') /\ estops x x').
  Proof.
    intros Hj Hv Hg Hspk Hat Hio Hidx Hent Hsh HZ Hqok.
    assert (Hkind : en_kind (zm_entry m) = EkFile) by (destruct (via m) as [k0|] eqn:E; [eapply via_kind; eauto|congruence]).
    assert (Hi : cidx (x_ck x) = j) by (unfold cidx; rewrite Hidx; lia).
    pose proof Hsh as (_ & [(Hno & _)|(m' & w1 & Hm' & Hent' & Hsrc)]); [congruence|].
    rewrite Hi, Hj in Hm'. injection Hm' as <-.
    assert (w1 = w0). { rewrite Hent in Hent'. injection Hent' as Hx. lia. } subst w1.
    destruct (via m) as [k0|] eqn:Hvm; [|congruence].
    destruct Hsrc as (Hw0 & Hun & Hsrc).
    assert (Hpos : cpos (x_ck x) = (j, w0)).
    { unfold cpos, ckw, ck_woff. rewrite Hi, Hj, Hvm, Hent. cbn [en_woff set_woff]. rewrite Nat2Z.id. reflexivity. }
    assert (Hfail : forall y r0, x_sink y = x_sink x -> x_ck y = x_ck x -> ZI (j, w0) y -> r0 <> Panic -> (forall u, r0 <> Ok u) -> epost j m x y r0).
    { intros y r0 Y1 Y2 Y3 Y4 Y5. exists w0. rewrite Y2. splits; auto. destruct r0; [exfalso; eapply Y5; reflexivity|exact Logic.I|congruence|exact Logic.I]. }
    assert (HLL : exists LL, viafacts m k inj prj LL /\ exists hi, lands LL (option_map prj (ec_src (x_ck x))) 0 hi /\ (located m -> hi <= Z.of_nat w0)).
    { destruct (ec_src (x_ck x)) as [sc|].
      - destruct Hsrc as (sc0 & Hg0 & Hlow & Hsp).
        destruct (proj2 (Hg sc0) Hg0) as (LL & F & Hc). exists LL. split; [exact F|].
        exists (ck_off sc0). split; [|exact Hlow]. cbn [option_map].
        pose proof (lw_ck_len _ _ _ LL _ Hc) as Hlen. rewrite (vf_prj _ _ _ _ _ F) in Hlen.
        destruct Hsp as [-> | Hsp].
        + eapply lands_weaken; [apply lands_genuine; intros ? [= <-]; exact Hc| |]; rewrite (vf_prj _ _ _ _ _ F); lia.
        + apply (vf_spoil _ _ _ _ _ F); [exact Hc|]. apply Hspk. exact Hsp.
      - destruct Hat as (LL & F). exists LL. split; [exact F|]. exists 0. split; [|lia].
        exact (lands_genuine LL None ltac:(discriminate)). }
    destruct HLL as (LL & VF & hi & Hland & Hhi).
    unfold zip_copy.
    destruct (s_resume (stk_source k) (stk_new k (zi_section io (zm_off m) (zm_csize m)) 0 (zm_csize m)) (option_map prj (ec_src (x_ck x)))) as [src1 r1] eqn:Hres.
    pose proof (Hland _ _ _ (vf_wf _ _ _ _ _ VF io Hio) (vf_quiet _ _ _ _ _ VF io Hio) Hres) as HR.
    destruct r1 as [offset|e1| |]; try contradiction.
    2:{ injection 1 as <- <-. split; [apply Hfail; auto; discriminate|].
        intros (_ & _ & _ & Hgood & Herr & _) _. destruct HR as [HR|[_ HR]].
        - exfalso. apply HR. exact (vf_clean _ _ _ _ _ VF io Hio Hgood).
        - exfalso. apply HR. apply Herr. congruence. }
    destruct HR as (Hoff & (m1 & Hat1) & Hq1 & Hc1).
    assert (Hle : located m -> offset <= Z.of_nat w0) by (intros Hl; specialize (Hhi Hl); lia).
    assert (Htight : tight (x_ck x) -> Z.of_nat w0 <= offset \/ zpolite m = true).
    { intros [Ht|(mm & Hm1 & [Hm2|Hm2])]; rewrite ?Hi, ?Hj in *; [left| congruence|right; congruence].
      unfold ck_woff in Ht. rewrite Hent in Ht. cbn [en_woff set_woff] in Ht.
      destruct (ec_src (x_ck x)) as [sc|]; [|lia].
      destruct Ht as (Ht & mm & Hm1 & Hgm). injection Hm1 as <-.
      destruct (proj2 (Hg sc) Hgm) as (LL' & F & Hc).
      pose proof (lands_genuine LL' (Some (prj sc)) ltac:(intros ? [= <-]; exact Hc) _ _ _ (vf_wf _ _ _ _ _ F io Hio) (vf_quiet _ _ _ _ _ F io Hio) Hres) as (Hx & _).
      rewrite (vf_prj _ _ _ _ _ F) in Hx. lia. }
    assert (Hqoff : ple q0 (j, Nat.max w0 (Z.to_nat offset))).
    { destruct Hqok as [Hq|(sc & Hs1 & Hs2 & Hs3)].
      - rewrite Hpos in Hq. unfold ple in *. cbn [fst snd] in *. lia.
      - destruct (proj2 (Hg sc) Hs2) as (LL' & F & Hc). rewrite Hs1 in Hres. cbn [option_map] in Hres.
        pose proof (lands_genuine LL' (Some (prj sc)) ltac:(intros ? [= <-]; exact Hc) _ _ _ (vf_wf _ _ _ _ _ F io Hio) (vf_quiet _ _ _ _ _ F io Hio) Hres) as (Hx & _).
        rewrite (vf_prj _ _ _ _ _ F) in Hx. assert (Hy : offset = ck_off sc) by lia. rewrite Hy. unfold ple in *. cbn [fst snd] in *. lia. }
    cbn [en_woff set_woff].
    (* after discarding, the source is at o with W o = w0 *)
    destruct (if offset <? Z.of_nat w0 then discard_by_read (stk_source k) no_cb fuel src1 tt (Z.of_nat w0 - offset) else (src1, tt, Ok tt))
      as [[src2 u2] r2] eqn:Hdis.
    assert (Hd : match r2 with
      | Ok _ => exists o m2, lw_at LL src2 o m2 /\ W m o = w0 /\ (m2 <= m1)%nat /\ (lw_clean LL src1 -> lw_clean LL src2) /\ lw_quiet LL src2 /\ o = Nat.max w0 (Z.to_nat offset)
      | Panic => False
      | _ => ~ (tight (x_ck x) /\ (B < fuel)%nat /\ lw_clean LL src1)
      end).
    { destruct (offset <? Z.of_nat w0) eqn:Hlt.
      - pose proof (discard_quiet LL _ _ _ _ _ _ _ _ Hat1 Hq1 Hdis) as HD.
        assert (Hnt : (tight (x_ck x) /\ (B < fuel)%nat /\ lw_clean LL src1) -> exists u, r2 = Ok u).
        { intros (Ht & Hf & Hcl). destruct (Htight Ht) as [Hx|Hp]; [lia|].
          pose proof (lw_at_len _ _ _ LL _ _ _ Hat1) as [_ Hmb]. pose proof (vf_bound _ _ _ _ _ VF).
          pose proof (discard_ok LL unit no_cb (fun _ => True) fuel src1 _ _ _ _ _ _ _
            ltac:(intros; exfalso; tauto) Logic.I Hat1 ltac:(lia) Hdis) as (_ & _ & D3).
          destruct r2 as [u|e| |]; try contradiction; [eauto|].
          destruct D3 as (o2 & m2 & _ & _ & _ & _ & [D3|(_ & _ & D4 & D5)]); [tauto|].
          rewrite (vf_polite _ _ _ _ _ VF) in D5. exfalso. rewrite Hp in D5. assert (true = false) by (apply D5; lia). discriminate. }
        destruct r2 as [[]|e2| |]; auto; try (intros Hx; destruct (Hnt Hx); discriminate).
        destruct HD as (m2 & H1 & H2 & H3 & H4).
        exists w0, m2. replace w0 with (Z.to_nat offset + Z.to_nat (Z.of_nat w0 - offset))%nat at 1 by lia. splits; auto; [|lia].
        unfold W. destruct (kl_of L (zm_entry m)) eqn:Hl; [reflexivity|].
        symmetry. apply Hun. unfold located. congruence.
      - injection Hdis as <- <- <-. exists (Z.to_nat offset), m1. splits; auto; [|lia].
        unfold W. destruct (kl_of L (zm_entry m)) eqn:Hl.
        + assert (located m) by (unfold located; congruence). specialize (Hle H). lia.
        + symmetry. apply Hun. unfold located. congruence. }
    destruct r2 as [[]|e2| |]; try contradiction.
    2,3: injection 1 as <- <-; split; [apply Hfail; auto; discriminate|intros (_ & Hf & _ & Hgd & _ & _ & Ht) _; exfalso; apply Hd; splits; auto; apply Hc1, (vf_clean _ _ _ _ _ VF io Hio Hgd)].
    destruct Hd as (o & m2 & Hat2 & HWo & Hm2 & Hc2 & Hq2 & Ho2).
    destruct (lw_at_len _ _ _ LL _ _ _ Hat2) as [Holen Hbnd].
    destruct (k_getw SK (x_sink x) (set_woff (zm_entry m) (Z.of_nat w0))) as [s' rw] eqn:Hget.
    destruct (getw_step _ _ _ Hvalid _ _ _ (item_j j m Hj Hkind) _ eq_refl Hkind _ _ _ _
      (zi_inv _ _ HZ) (zi_settled _ _ HZ) (zi_part _ _ HZ) Hw0 Hget) as (Hks & Hrw).
    set (x1 := zx_sink SK C fuel0 SV x s').
    assert (Z1 : ZI (j, w0) x1) by (eapply (ZI_sink (j, w0) x); [exact HZ|exact Hks|reflexivity..]).
    destruct rw as [w|ew| |]; try contradiction.
    2:{ injection 1 as <- <-. split; [|tauto]. exists w0. splits; auto. }
    destruct Hrw as (Hwr & Hclw).
    destruct (copier_do _ fuel (s_setssc (stk_source k) src2, x1)) as [[src3 x3] r3] eqn:Hcop.
    injection 1 as <- <-. unfold copier_do in Hcop. cbn [ce_setstop zip_cenv fst snd] in Hcop.
    set (x2 := zx_stop SK C fuel0 SV x1 false) in *.
    destruct (lw_setssc _ _ _ LL _ (lw_at_wf _ _ _ LL _ _ _ Hat2)) as (_ & T2 & T3 & T4).
    specialize (T2 _ _ Hat2).
    assert (Z2 : ZI (j, W m o) x2) by (rewrite HWo; eapply ZI_same; [exact Z1|reflexivity..|discriminate]).
    assert (C2 : CI j m o x2).
    { split; auto. rewrite HWo. exact Hent. change (x_ck x2) with (x_ck x). destruct (ec_src (x_ck x)); [|exact Logic.I].
      rewrite HWo. exact Hsrc. }
    assert (W2 : writing L items view0 j (zm_entry m) (zm_data m) w o (x_sink x2)).
    { destruct Hwr as (Q1 & Q2 & Q3). unfold writing. splits; auto. unfold W in HWo.
      destruct (kl_of L (zm_entry m)); [subst o; exact Q3|exact Q3]. }
    assert (Hgk : forall sc, gck_at m k inj prj sc -> gck m sc) by (intros sc; apply Hg).
    assert (Hv' : via m <> None) by congruence.
    destruct (copy_loop_ok j m Hj Hkind k inj prj Hv' Hgk LL VF w fuel _ _ _ _ _ _ _ _ T2 Z2 C2 W2 ltac:(rewrite Ho2; exact Hqoff) (or_introl (T3 Hq2)) Hcop) as (o' & (Q1 & Q2 & Q3 & Q4 & _) & Hr3 & Hl3).
    destruct (CI_shape j m Hj Hv' o' x3 Q3) as [Hsh3 Hpos3].
    split.
    - exists (W m o'). splits; auto. destruct r3 as [u|e3| |]; cbn [ws]; auto.
      destruct Hr3 as [Hs|[-> He]]; [left; exact (zi_stop _ _ Q2 Hs)|right]. split; [|auto].
      eapply writing_done; eauto using item_j.
    - intros (L1 & L2 & L3 & L4 & L5 & L6 & L7) Hcs.
      pose proof (vf_bound _ _ _ _ _ VF).
      destruct (Hl3 (T4 (Hc2 (Hc1 (vf_clean _ _ _ _ _ VF io Hio L4)))) (Hclw Hcs) L1 (L5 Hv') ltac:(lia)) as (R1 & R2 & R3).
      rewrite R1. splits; auto. destruct R3 as [[_ R3]|(R3 & _ & R4)]; [left; exact R3|right; auto].
  Qed.

  (** a checkpoint inside an entry that is not resumable *)
  Definition plain (j : nat) (m : zmember) (c : zeck) : Prop :=
    ec_index c = Z.of_nat j /\ ec_src c = None /\ exists w, ec_entry c = Some (set_woff (zm_entry m) (Z.of_nat w)).
  Lemma plain_shape j m c : nth_error ms j = Some m -> via m = None -> plain j m c -> cshape c /\ cpos c = (j, 0%nat).
  Proof.
    intros Hj Hv (P1 & P2 & w & P3).
    assert (Hi : cidx c = j) by (unfold cidx; rewrite P1; lia). split.
    - split; [rewrite Hi; exact P1|]. right. exists m, w. rewrite Hi, Hv. auto.
    - unfold cpos, ckw. rewrite Hi, Hj, Hv. reflexivity.
  Qed.

  Lemma io_copy_ok j m w : nth_error ms j = Some m -> en_kind (zm_entry m) = EkFile ->
    forall chunks fin x o x' r rest,
    ZI (j, 0%nat) x -> writing L items view0 j (zm_entry m) (zm_data m) w o (x_sink x) -> plain j m (x_ck x) ->
    skipn o (zm_data m) = concat chunks ++ rest -> (o <= length (zm_data m))%nat ->
    zip_io_copy SK C fuel0 SV w chunks fin x = (x', r) ->
    ZI (j, 0%nat) x' /\ plain j m (x_ck x') /\ x_stoperr x' = x_stoperr x /\
    match r with
    | Ok _ => fin = None /\ writing L items view0 j (zm_entry m) (zm_data m) w (o + length (concat chunks)) (x_sink x')
    | Err _ => True
    | _ => False
    end /\
    (kl_clean L (x_sink x) -> fin = None -> r = Ok tt /\ kl_clean L (x_sink x')).
  Proof.
    intros Hj Hkind. induction chunks as [|d ds IH]; intros fin x o x' r rest HZ Hw Hp Hrest Ho; cbn [zip_io_copy].
    - injection 1 as <- <-. cbn [concat length]. rewrite Nat.add_0_r. destruct fin; splits; auto; try discriminate.
    - cbn [concat] in *.
      assert (Hlen : (o + length d <= length (zm_data m))%nat).
      { apply (f_equal (@length _)) in Hrest. rewrite skipn_length, !app_length in Hrest. lia. }
      assert (Hd : d = slice (zm_data m) o (length d)).
      { unfold slice. rewrite Hrest. rewrite <- app_assoc. rewrite firstn_app_exact; reflexivity. }
      destruct (k_write SK (x_sink x) w d) as [s2 [[n adv] ew]] eqn:Hwr.
      destruct (write_step _ _ _ Hvalid _ _ _ (item_j j m Hj Hkind) _ eq_refl Hkind _ _ _ _ _ _ _ _ Hw Hd Hlen Hwr)
          as (Hks & Hn & Hnone & Hcl & Hadv & Hw2).
      set (x2 := zx_ck SK C fuel0 SV (zx_sink SK C fuel0 SV x s2) (ck_set_woff C fuel0 (x_ck x) (ck_woff C fuel0 (x_ck x) + adv))).
      assert (Z2 : ZI (j, 0%nat) x2).
      { eapply (ZI_sink (j, 0%nat) x); [exact HZ|exact (kstep_le _ _ _ _ _ (Nat.le_0_l _) Hks)|reflexivity..]. }
      assert (P2 : plain j m (x_ck x2)).
      { destruct Hp as (P1 & P2 & w1 & P3). split; [exact P1|]. split; [exact P2|].
        exists (w1 + Z.to_nat adv)%nat.
        change (ec_entry (x_ck x2)) with (option_map (fun e => set_woff e (ck_woff C fuel0 (x_ck x) + adv)) (ec_entry (x_ck x))).
        unfold ck_woff. rewrite P3. cbn [option_map en_woff set_woff]. f_equal. unfold set_woff at 1 2. cbn. unfold set_woff. f_equal.
        assert (0 <= adv) by (rewrite Hadv; destruct (kl_of L (zm_entry m)); lia). lia. }
      destruct ew as [e|].
      { injection 1 as <- <-. splits; auto. intros Hc. destruct (Hcl Hc). discriminate. }
      rewrite (Hnone eq_refl) in *. rewrite Nat.eqb_refl. intros Hrec.
      assert (Hrest2 : skipn (o + length d) (zm_data m) = concat ds ++ rest).
      { rewrite <- skipn_skipn', Hrest, <- app_assoc. apply skipn_app_exact. reflexivity. }
      destruct (IH fin x2 (o + length d)%nat x' r rest Z2 Hw2 P2 Hrest2 Hlen Hrec) as (Q1 & Q2 & Q3 & Q4 & Q5).
      splits; auto.
      + destruct r; auto. rewrite app_length, Nat.add_assoc. exact Q4.
      + intros Hc Hf. apply Q5; [exact (proj1 (Hcl Hc))|exact Hf].
  Qed.

  (** zip_entry, started at position [(j, w0)]. *)
  Definition entered (j : nat) (m : zmember) (c : zeck) : zeck :=
    MkEck (ec_src c) (Z.of_nat j) (Some (match ec_entry c with Some e => e | None => zip_entry_of (zm_file m) end)) (ec_prog c) (ec_data c).

  Lemma zip_entry_ok j m io fuel x x' r w0 :
    nth_error ms j = Some m -> io_ok A pol m io ->
    cshape (entered j m (x_ck x)) -> cpos (entered j m (x_ck x)) = (j, w0) -> ZI (j, w0) x -> qok j m (entered j m (x_ck x)) ->
    Zip.zip_entry SK C fuel0 SV io fuel (Z.of_nat j) (zm_file m) (doneZ j) (sum_sizes (zfiles ms)) x = (x', r) ->
    epost j m x x' r /\
    (elive fuel m io (entered j m (x_ck x)) -> kl_clean L (x_sink x) ->
       r = Ok tt /\ kl_clean L (x_sink x') /\ estops x x') /\
    (Z.odd (zf_flags (zm_file m)) = true -> x_sink x' = x_sink x /\ r = Err EEncrypted /\ x_log x' = x_log x).
  Proof.
    intros Hj Hio Hsh Hpos HZ Hqok. unfold Zip.zip_entry.
    set (c1 := MkEck _ (Z.of_nat j) _ _ _).
    change c1 with (entered j m (x_ck x)). clear c1. set (c1 := entered j m (x_ck x)) in *.
    set (e := match ec_entry (x_ck x) with Some e => e | None => _ end).
    set (x1 := zx_ck SK C fuel0 SV x c1).
    assert (Hc1i : cidx c1 = j) by (unfold cidx; change (ec_index c1) with (Z.of_nat j); lia).
    assert (He1 : ec_entry c1 = Some e) by reflexivity.
    assert (Z1 : ZI (j, w0) x1) by (eapply ZI_same; [exact HZ|reflexivity..|exact (zi_stop _ _ HZ)]).
    pose proof Hsh as (_ & [(Hno & _)|(m' & w1 & Hm' & Hent & Hsrc)]); [discriminate|].
    rewrite Hc1i, Hj in Hm'. injection Hm' as <-.
    rewrite He1 in Hent. injection Hent as Hent.
    assert (Hfail : forall y r0, x_sink y = x_sink x -> x_ck y = c1 -> ZI (j, w0) y -> r0 <> Panic -> (forall u, r0 <> Ok u) -> epost j m x y r0).
    { intros y r0 Y1 Y2 Y3 Y4 Y5. exists w0. rewrite Y2. splits; auto. destruct r0; [exfalso; eapply Y5; reflexivity|exact Logic.I|congruence|exact Logic.I]. }
    destruct (Z.odd (zf_flags (zm_file m))) eqn:Henc.
    { injection 1 as <- <-. splits; auto; [apply Hfail; auto; discriminate|].
      intros (_ & _ & Hx & _). congruence. }
    assert (Hk : en_kind e = en_kind (zm_entry m)) by (rewrite Hent; reflexivity).
    destruct (en_kind e) eqn:Hke.
    - (* directory *)
      assert (Hv : via m = None) by (unfold zm_via; rewrite <- Hk; reflexivity).
      assert (Hw0 : w0 = 0%nat) by (unfold cpos, ckw in Hpos; rewrite Hc1i, Hj, Hv in Hpos; congruence). subst w0.
      destruct (k_mkdir SK (x_sink x1) e) as [s' ro] eqn:Hop.
      assert (Hit : nth_error items j = Some (zm_entry m, NDir)).
      { unfold zitems. rewrite (map_nth_error _ _ _ Hj). unfold zm_item, zm_node. rewrite <- Hk. reflexivity. }
      rewrite Hent in Hop.
      destruct (mkdir_step _ _ view0 Hvalid _ _ _ Hit _ _ _ _ (zi_inv _ _ Z1) (eq_sym Hk) Hop) as (Hks & Hcl & Hset).
      injection 1 as <- <-.
      assert (Z2 : ZI (j, 0%nat) (zx_sink SK C fuel0 SV x1 s')) by (eapply (ZI_sink (j, 0%nat) x1); [exact Z1|exact Hks|reflexivity..]).
      splits; [| |discriminate].
      + exists 0%nat. splits; auto. destruct ro; [exact Logic.I|]. right. split; [|congruence].
        apply Hset; auto. exact (zi_settled _ _ Z1).
      + intros _ Hc. destruct (Hcl Hc) as [H1 ->]. splits; auto. left. reflexivity.
    - (* symlink *)
      assert (Hv : via m = None) by (unfold zm_via; rewrite <- Hk; reflexivity).
      assert (Hw0 : w0 = 0%nat) by (unfold cpos, ckw in Hpos; rewrite Hc1i, Hj, Hv in Hpos; congruence). subst w0.
      destruct Hio as (_ & _ & Hopen).
      destruct (zi_open io) as [[chunks fin]|e'| |] eqn:Hzo; try contradiction.
      2:{ injection 1 as <- <-. splits; [apply Hfail; auto; discriminate| |discriminate].
          intros (_ & _ & _ & (_ & _ & (? & ?)) & _). congruence. }
      destruct fin as [e'|].
      { injection 1 as <- <-. splits; [apply Hfail; auto; discriminate| |discriminate].
        intros (_ & _ & _ & (_ & _ & (? & ?)) & _). congruence. }
      destruct (k_symlink SK (x_sink x1) e (concat chunks)) as [s' ro] eqn:Hop.
      assert (Hit : nth_error items j = Some (zm_entry m, NLink (zm_data m))).
      { unfold zitems. rewrite (map_nth_error _ _ _ Hj). unfold zm_item, zm_node. rewrite <- Hk. reflexivity. }
      rewrite Hent, Hopen in Hop.
      destruct (symlink_step _ _ view0 Hvalid _ _ _ Hit _ _ _ _ _ (zi_inv _ _ Z1) (eq_sym Hk) Hop) as (Hks & Hcl & Hset).
      injection 1 as <- <-.
      assert (Z2 : ZI (j, 0%nat) (zx_sink SK C fuel0 SV x1 s')) by (eapply (ZI_sink (j, 0%nat) x1); [exact Z1|exact Hks|reflexivity..]).
      splits; [| |discriminate].
      + exists 0%nat. splits; auto. destruct ro; [exact Logic.I|]. right. split; [|congruence].
        apply Hset; auto. exact (zi_settled _ _ Z1).
      + intros (_ & _ & _ & _ & _ & Hvl & _) Hc. destruct (Hcl Hc) as [H1 H2]. rewrite (H2 (Hvl (eq_sym Hk))). splits; auto. left. reflexivity.
    - (* file *)
      destruct ((zf_method (zm_file m) =? zip_store) || (zf_method (zm_file m) =? zip_deflate)) eqn:Hmeth.
      + (* resumable *)
        assert (Hv : via m <> None).
        { unfold zm_via. rewrite <- Hk. destruct (zf_method (zm_file m) =? zip_store); [discriminate|].
          cbn in Hmeth. rewrite Hmeth. discriminate. }
        destruct Hio as (Hdo & Hio2 & Hio3).
        destruct (zi_dataoff io) as [off|e'| |] eqn:Hzd; try contradiction.
        2:{ injection 1 as <- <-. splits; [apply Hfail; auto; discriminate| |discriminate].
            intros (_ & _ & _ & ((? & ?) & _) & _). congruence. }
        subst off.
        assert (Hio : io_ok A pol m io) by (unfold io_ok; rewrite Hzd; auto).
        assert (Hw1 : w1 = w0).
        { unfold cpos, ckw, ck_woff in Hpos. rewrite Hc1i, Hj, He1, Hent in Hpos. destruct (via m); [|congruence].
          cbn [en_woff set_woff] in Hpos. rewrite Nat2Z.id in Hpos. congruence. }
        subst w1.
        pose proof (proj1 (Forall_forall _ _) Hms m (nth_error_In _ _ Hj)) as Hmg. unfold mgood in Hmg.
        change (wrap64 (zf_csize (zm_file m))) with (zm_csize m). rewrite Hent.
        assert (Hent1 : ec_entry (x_ck x1) = Some (set_woff (zm_entry m) (Z.of_nat w0))) by (rewrite <- Hent; reflexivity).
        destruct (via m) as [k0|] eqn:Hvm; [|congruence].
        unfold is_store in Hmg. destruct (zf_method (zm_file m) =? zip_store) eqn:Hst; intros Hcopy.
        * assert (Hg : forall sc, gck_at m KSeek (inj_store C fuel0) (prj_store C fuel0) sc <-> gck m sc).
          { intros sc. unfold gck, is_store. rewrite Hst. tauto. }
          assert (Hsp : forall sc sc', zspoilt_src C fuel0 m sc sc' -> spoilt KSeek (prj_store C fuel0 sc) (prj_store C fuel0 sc'))
            by (intros sc sc'; unfold zspoilt_src; rewrite Hst; auto).
          destruct (zip_copy_ok j m KSeek _ _ fuel io x1 x' r w0 Hj ltac:(congruence) Hg Hsp Hmg Hio eq_refl Hent1 Hsh Z1 Hqok Hcopy) as [P1 P2].
          splits; [exact P1|exact P2|discriminate].
        * assert (Hg : forall sc, gck_at m (zk_deflate C fuel0) (fun c => c) (fun c => c) sc <-> gck m sc).
          { intros sc. unfold gck, is_store. rewrite Hst. tauto. }
          assert (Hsp : forall sc sc', zspoilt_src C fuel0 m sc sc' -> spoilt (zk_deflate C fuel0) sc sc')
            by (intros sc sc'; unfold zspoilt_src; rewrite Hst; auto).
          destruct (zip_copy_ok j m (zk_deflate C fuel0) _ _ fuel io x1 x' r w0 Hj ltac:(congruence) Hg Hsp Hmg Hio eq_refl Hent1 Hsh Z1 Hqok Hcopy) as [P1 P2].
          splits; [exact P1|exact P2|discriminate].
      + (* not resumable *)
        assert (Hv : via m = None).
        { unfold zm_via. rewrite <- Hk. destruct (zf_method (zm_file m) =? zip_store); [discriminate|].
          cbn in Hmeth. rewrite Hmeth. reflexivity. }
        assert (Hw0 : w0 = 0%nat) by (unfold cpos, ckw in Hpos; rewrite Hc1i, Hj, Hv in Hpos; congruence). subst w0.
        rewrite Hv in Hsrc. change (ec_src c1) with (ec_src (x_ck x)) in Hsrc.
        set (x2 := zx_ck SK C fuel0 SV x1 _).
        assert (Z2 : ZI (j, 0%nat) x2) by (eapply ZI_same; [exact Z1|reflexivity..|exact (zi_stop _ _ Z1)]).
        assert (Hpl : plain j m (x_ck x2)).
        { split; [reflexivity|]. split; [exact Hsrc|]. exists 0%nat. change (ec_entry (x_ck x2)) with (Some (set_woff e 0)). rewrite Hent. reflexivity. }
        assert (Hep : forall y r0, ZI (j, 0%nat) y -> plain j m (x_ck y) ->
          match r0 with Ok _ => settled (Datatypes.S j) (x_sink y) | Panic => False | _ => True end -> epost j m x y r0).
        { intros y r0 Y1 Y2 Y3. destruct (plain_shape j m _ Hj Hv Y2) as [S1 S2]. exists 0%nat. splits; auto.
          destruct r0; auto. right. split; [exact Y3|congruence]. }
        destruct Hio as (_ & _ & Hopen).
        destruct (zi_open io) as [[chunks fin]|e'| |] eqn:Hzo; try contradiction.
        2:{ injection 1 as <- <-. splits; [apply Hep; auto| |discriminate].
            intros (_ & _ & _ & (_ & _ & (? & ?)) & _). congruence. }
        destruct (k_getw SK (x_sink x2) (set_woff e 0)) as [s' rw] eqn:Hget.
        rewrite Hent in Hget. change (set_woff (set_woff (zm_entry m) (Z.of_nat w1)) 0) with (set_woff (zm_entry m) (Z.of_nat 0)) in Hget.
        destruct (getw_step _ _ _ Hvalid _ _ _ (item_j j m Hj (eq_sym Hk)) _ eq_refl (eq_sym Hk) _ _ _ _
          (zi_inv _ _ Z2) (zi_settled _ _ Z2) (zi_part _ _ Z2) (Nat.le_0_l _) Hget) as (Hks & Hrw).
        assert (Z3 : ZI (j, 0%nat) (zx_sink SK C fuel0 SV x2 s')) by (eapply (ZI_sink (j, 0%nat) x2); [exact Z2|exact Hks|reflexivity..]).
        destruct rw as [w|ew| |]; try contradiction.
        2:{ injection 1 as <- <-. splits; [apply Hep; auto|intros _ Hc; tauto|discriminate]. }
        destruct Hrw as (Hwr & Hclw).
        destruct (zip_io_copy SK C fuel0 SV w chunks fin (zx_sink SK C fuel0 SV x2 s')) as [x3 r3] eqn:Hcopy.
        injection 1 as <- <-.
        assert (Hpre : exists rest, zm_data m = concat chunks ++ rest /\ (fin = None -> rest = [])).
        { destruct fin; [destruct Hopen as (_ & rest & ->); exists rest; split; [reflexivity|discriminate]|].
          exists []. rewrite app_nil_r. auto. }
        destruct Hpre as (rest & Hdata & Hrest).
        destruct (io_copy_ok j m w Hj (eq_sym Hk) chunks fin _ 0 x3 r3 rest Z3 Hwr Hpl Hdata (Nat.le_0_l _) Hcopy)
          as (Q1 & Q2 & Q3 & Q4 & Q5).
        splits; [| |discriminate].
        * apply Hep; auto. destruct r3; cbn [ws]; auto. destruct Q4 as [-> Q4].
          rewrite (Hrest eq_refl), app_nil_r in Hdata. rewrite <- Hdata in Q4.
          eapply writing_done; eauto using item_j.
        * intros (_ & _ & _ & (_ & _ & (? & ?)) & _) Hc. rewrite Hzo in H. injection H as -> ->.
          destruct (Q5 (Hclw Hc) eq_refl) as [-> Q6]. splits; auto. left. exact Q3.
    - (* no other kinds *)
      exfalso. clear -Hk. unfold zm_entry, zrecord_entry in Hk. cbn [en_kind] in Hk.
      destruct (Z.testbit _ _); [discriminate|]. destruct (Z.testbit _ _); discriminate.
  Qed.

  (** ** The loop over the entries *)
  Lemma skipn_files : forall i m, nth_error ms i = Some m -> skipn i (zfiles ms) = zm_file m :: skipn (Datatypes.S i) (zfiles ms).
  Proof.
    clear. unfold zfiles. induction ms as [|a l IH]; intros [|i] m; cbn; try discriminate.
    - intros [= ->]. reflexivity.
    - apply IH.
  Qed.

  Lemma skipn_ms : forall i m, nth_error ms i = Some m -> skipn i ms = m :: skipn (Datatypes.S i) ms.
  Proof.
    clear. induction ms as [|a l IH]; intros [|i] m; cbn; try discriminate.
    - intros [= ->]. reflexivity.
    - apply IH.
  Qed.

  Lemma doneZ_S i m : nth_error ms i = Some m -> wrap64 (doneZ i + wrap64 (zf_usize (zm_file m))) = doneZ (Datatypes.S i).
  Proof.
    intros Hi. unfold doneZ, sum_sizes, zfiles.
    rewrite <- (firstn_skipn i (map zm_file ms)) at 2.
    pose proof (skipn_files i m Hi) as Hs. unfold zfiles in Hs. rewrite Hs. assert (Hl : (i < length ms)%nat) by (apply nth_error_Some; congruence).
    rewrite firstn_app. rewrite firstn_length_le by (rewrite map_length; lia).
    replace (Datatypes.S i - i)%nat with 1%nat by lia. rewrite firstn_firstn, Nat.min_r by lia.
    rewrite fold_left_app. reflexivity.
  Qed.

  Lemma entered_fresh j m c : nth_error ms j = Some m -> ec_entry c = None -> ec_src c = None ->
    cshape (entered j m c) /\ cpos (entered j m c) = (j, 0%nat) /\ tight (entered j m c).
  Proof.
    intros Hj He Hs. unfold entered. rewrite He, Hs.
    set (c1 := MkEck _ _ _ _ _).
    assert (Hi : cidx c1 = j) by (unfold cidx; change (ec_index c1) with (Z.of_nat j); lia).
    splits.
    - split; [rewrite Hi; reflexivity|]. right. exists m, 0%nat. rewrite Hi. splits; auto.
      destruct (via m); [|reflexivity]. splits; [lia|auto|exact Logic.I].
    - unfold cpos, ckw. rewrite Hi, Hj. destruct (via m); reflexivity.
    - left. change (0 <= 0). lia.
  Qed.

  Definition ready (i : nat) (x : zx) (w0 : nat) : Prop :=
    ZI (i, w0) x /\ zgood (x_sink x) (x_ck x) /\
    forall m, nth_error ms i = Some m -> cshape (entered i m (x_ck x)) /\ cpos (entered i m (x_ck x)) = (i, w0) /\ qok i m (entered i m (x_ck x)).

  Definition lpost (i : nat) (x x' : zx) (r : res unit) : Prop :=
    exists p', ZI p' x' /\ zgood (x_sink x') (x_ck x') /\
    match r with
    | Ok _ => x_stoperr x' = true \/
        settled (length ms) (x_sink x') /\ forall i' m, (i <= i')%nat -> nth_error ms i' = Some m -> via m <> None -> zm_err m = EEof
    | Panic => False
    | _ => cpos (x_ck x') = p'
    end.

  Definition enc (m : zmember) : bool := Z.odd (zf_flags (zm_file m)).
  Definition llive (fuel : nat) (io : nat -> zio) (i : nat) : Prop :=
    saver_ok /\ (B < fuel)%nat /\
    forall i' m, (i <= i')%nat -> nth_error ms i' = Some m ->
      (forall k mk, (i <= k <= i')%nat -> nth_error ms k = Some mk -> enc mk = false) ->
      io_good (io i') /\
      (via m <> None -> zm_err m = EEof) /\ (en_kind (zm_entry m) = EkSymlink -> kl_vlink L (zm_entry m) (zm_data m)).

  Lemma zip_loop_ok io fuel : (forall i m, nth_error ms i = Some m -> io_ok A pol m (io i)) ->
    forall rest i x x' r w0, rest = skipn i (zfiles ms) -> (i <= length ms)%nat -> ready i x w0 ->
    zip_loop SK C fuel0 SV io fuel rest i (doneZ i) (sum_sizes (zfiles ms)) x = (x', r) ->
    lpost i x x' r /\
    (llive fuel io i -> kl_clean L (x_sink x) -> x_stoperr x = false ->
       (forall m, nth_error ms i = Some m -> tight (entered i m (x_ck x))) ->
       (~ saver_goes_on SV /\ r = Ok tt /\ kl_clean L (x_sink x') /\ x_stoperr x' = true) \/
       if existsb enc (skipn i ms) then r = Err EEncrypted
       else r = Ok tt /\ kl_clean L (x_sink x') /\ x_stoperr x' = false).
  Proof.
    intros Hio. induction rest as [|zf rest IH]; intros i x x' r w0 Hrest Hi (HZ & Hg & Hent); cbn [zip_loop].
    - injection 1 as <- <-.
      assert (i = length ms).
      { apply (f_equal (@length _)) in Hrest. rewrite skipn_length in Hrest. unfold zfiles in Hrest. rewrite map_length in Hrest. cbn in Hrest. lia. }
      subst i. split; [|rewrite skipn_all; cbn [existsb]; right; auto]. exists (length ms, w0). splits; auto. right. split; [exact (zi_settled _ _ HZ)|].
      intros i' m Hi' Hm. assert (i' < length ms)%nat by (apply nth_error_Some; congruence). lia.
    - destruct (nth_error ms i) as [m|] eqn:Hm.
      2:{ exfalso. apply nth_error_None in Hm. rewrite skipn_all2 in Hrest; [discriminate|]. unfold zfiles. rewrite map_length. lia. }
      pose proof (skipn_files i m Hm) as Hs.
      rewrite Hs in Hrest. injection Hrest as -> Hrest.
      destruct (Hent m eq_refl) as (Hsh & Hpos & Hqok).
      destruct (x_stoperr x) eqn:Hse.
      { injection 1 as <- <-. split; [|discriminate]. exists (i, w0). splits; auto. }
      destruct (Zip.zip_entry SK C fuel0 SV (io i) fuel (Z.of_nat i) (zm_file m) (doneZ i) (sum_sizes (zfiles ms)) x) as [x1 r1] eqn:He.
      destruct (zip_entry_ok i m (io i) fuel x x1 r1 w0 Hm (Hio i m Hm) Hsh Hpos HZ Hqok He) as ((w' & Z1 & Sh1 & P1 & R1) & Live & Hencr).
      assert (Hex : existsb enc (skipn i ms) = enc m || existsb enc (skipn (Datatypes.S i) ms)) by (rewrite (skipn_ms i m Hm); reflexivity).
      assert (G1 : zgood (x_sink x1) (x_ck x1)).
      { unfold zgood. assert (Hc : cidx (x_ck x1) = i /\ ckw (x_ck x1) = w') by (unfold cpos in P1; split; congruence).
        destruct Hc as [-> ->]. splits; auto; [exact (zi_settled _ _ Z1)|exact (zi_part _ _ Z1)]. }
      destruct r1 as [u|e| |]; try contradiction.
      2,3: injection 1 as <- <-; split; [exists (i, w'); splits; auto|].
      2,3: intros (L1 & L2 & L3) Hcl Hf Ht; rewrite Hex; destruct (enc m) eqn:Hen; cbn [orb];
           [destruct (Hencr Hen) as (_ & He' & _); first [discriminate He' | injection He' as ->; right; reflexivity]|].
      2,3: assert (L4 : forall k mk, (i <= k <= i)%nat -> nth_error ms k = Some mk -> enc mk = false)
           by (intros k mk Hk Hmk; assert (k = i) as -> by lia; congruence);
           destruct (L3 i m ltac:(lia) Hm L4) as (L5 & L6 & L7);
           destruct Live as (? & _ & _); [unfold elive; splits; auto|exact Hcl|discriminate].
      assert (Hen : enc m = false) by (destruct (enc m) eqn:Hen; [destruct (Hencr Hen) as (_ & ? & _); discriminate|reflexivity]).
      assert (L4 : forall k mk, (i <= k <= i)%nat -> nth_error ms k = Some mk -> enc mk = false)
           by (intros k mk Hk Hmk; assert (k = i) as -> by lia; congruence).
      rewrite (doneZ_S i m Hm).
      set (x2 := zx_ck SK C fuel0 SV x1 _).
      assert (Hc2 : cidx (x_ck x2) = i) by (change (cidx (x_ck x2)) with (cidx (x_ck x1)); unfold cpos in P1; congruence).
      assert (Hi1 : (i < length ms)%nat) by (apply nth_error_Some; congruence).
      assert (Sh2 : cshape (x_ck x2)).
      { split.
        - change (ec_index (x_ck x2)) with (ec_index (x_ck x1)). rewrite Hc2. rewrite (proj1 Sh1). f_equal. unfold cpos in P1. congruence.
        - left. rewrite Hc2. splits; auto. }
      assert (W2 : ckw (x_ck x2) = 0%nat).
      { unfold ckw. rewrite Hc2, Hm. destruct (via m); reflexivity. }
      assert (G2 : zgood (x_sink x2) (x_ck x2)).
      { unfold zgood. rewrite Hc2, W2. split; [exact Sh2|]. split; [exact (zi_settled _ _ Z1)|apply part_0; exact view0]. }
      destruct R1 as [Hstop|[Hset Htm]].
      + (* stopped *)
        intros Hrec. assert (Hst2 : x_stoperr x2 = true) by exact Hstop.
        assert (Hl : (x', r) = (x2, Ok tt)) by (rewrite <- Hrec; destruct rest; cbn [zip_loop]; rewrite ?Hst2; reflexivity).
        injection Hl as -> ->. split.
        * exists (i, w'). splits; auto. eapply ZI_same; [exact Z1|reflexivity..|exact (zi_stop _ _ Z1)].
        * intros (L1 & L2 & L3) Hcl Hf Ht. destruct (L3 i m ltac:(lia) Hm L4) as (L5 & L6 & L7).
          destruct Live as (_ & ? & [?|[? ?]]); [unfold elive; splits; auto|exact Hcl|congruence|]. left. auto.
      + assert (Z2 : ZI (Datatypes.S i, 0%nat) x2).
        { eapply (ZI_pos (i, w')).
          - eapply ZI_same; [exact Z1|reflexivity..|exact (zi_stop _ _ Z1)].
          - left. cbn. lia.
          - exact Hset.
          - apply part_0; exact view0. }
        intros Hrec.
        assert (Hqn : ple q0 (Datatypes.S i, 0%nat)).
        { destruct Hqok as [Hq|(sc & _ & _ & Hq)]; [rewrite Hpos in Hq|]; unfold ple in *; cbn [fst snd] in *; lia. }
        destruct (IH (Datatypes.S i) x2 x' r 0%nat Hrest ltac:(lia)) as [Hp Hl]; auto.
        { split; [exact Z2|]. split; [exact G2|]. intros m2 Hm2.
          destruct (entered_fresh _ _ (x_ck x2) Hm2 eq_refl eq_refl) as (F1 & F2 & _). splits; auto.
          left. rewrite F2. exact Hqn. }
        split.
        * destruct Hp as (p' & Q1 & Q2 & Q3). exists p'. splits; auto. destruct r; auto.
          destruct Q3 as [Q3|[Q3 Q4]]; [left; exact Q3|right]. split; [exact Q3|].
          intros i' m' Hi' Hm' Hv'. destruct (Nat.eq_dec i' i) as [->|]; [|apply (Q4 i' m'); [lia|assumption..]].
          assert (m' = m) by congruence. subst m'. auto.
        * intros (L1 & L2 & L3) Hcl Hf Ht. destruct (L3 i m ltac:(lia) Hm L4) as (L5 & L6 & L7).
          destruct Live as (_ & E1 & E2); [unfold elive; splits; auto|exact Hcl|].
          destruct E2 as [E2|[E2 E3]].
          2:{ left. assert (Hst2 : x_stoperr x2 = true) by exact E3.
              assert (Hl0 : (x', r) = (x2, Ok tt)) by (rewrite <- Hrec; destruct rest; cbn [zip_loop]; rewrite ?Hst2; reflexivity).
              injection Hl0 as -> ->. auto. }
          rewrite Hex, Hen. cbn [orb]. apply Hl; auto.
          -- split; [exact L1|]. split; [exact L2|]. intros i' m' Hi' Hm' Hb. apply L3; auto; [lia|].
             intros k mk Hk Hmk. destruct (Nat.eq_dec k i) as [->|]; [congruence|]. apply (Hb k mk); [lia|exact Hmk].
          -- change (x_stoperr x2) with (x_stoperr x1). congruence.
          -- intros m2 Hm2. exact (proj2 (proj2 (entered_fresh _ _ (x_ck x2) Hm2 eq_refl eq_refl))).
  Qed.

  (** ** Preallocation *)
  Lemma zip_prealloc_ok : forall rest i st st' r, rest = skipn i (zfiles ms) ->
    kl_inv L st -> outside L items view0 st -> zip_preallocate SK rest st = (st', r) ->
    kl_inv L st' /\ outside L items view0 st' /\ (kl_clean L st -> kl_clean L st' /\ r = None).
  Proof.
    induction rest as [|zf rest IH]; intros i st st' r Hrest Hi Ho; cbn [zip_preallocate].
    - injection 1 as <- <-. auto.
    - destruct (nth_error ms i) as [m|] eqn:Hm.
      2:{ exfalso. apply nth_error_None in Hm. rewrite skipn_all2 in Hrest; [discriminate|]. unfold zfiles. rewrite map_length. lia. }
      pose proof (skipn_files i m Hm) as Hs.
      rewrite Hs in Hrest. injection Hrest as -> Hrest.
      assert (Hit : nth_error items i = Some (zm_item m)) by (apply map_nth_error; exact Hm).
      destruct (en_kind (zip_entry_of (zm_file m))) eqn:Hk; try (apply (IH (Datatypes.S i)); assumption).
      destruct (k_prealloc SK st (zip_entry_of (zm_file m))) as [s1 r1] eqn:Hop.
      destruct (prealloc_step _ _ view0 Hvalid i (zm_entry m) _ Hit st s1 r1 0 Hi Hk Hop) as (Hks & Hcl).
      assert (H0 : kl_inv L s1 /\ outside L items view0 s1).
      { split; [destruct Hks as (? & ? & _ & ? & _); assumption|].
        exact (proj2 (proj2 (kstep_settled _ _ _ Hvalid _ _ _ _ _ Hks (Nat.le_0_l _) (settled_0 _ _ _ _ Ho)))). }
      destruct H0 as [I1 O1].
      destruct r1 as [e'|].
      + injection 1 as <- <-. splits; auto. intros Hc. destruct (Hcl Hc). discriminate.
      + intros Hrec. destruct (IH (Datatypes.S i) _ _ _ Hrest I1 O1 Hrec) as (Q1 & Q2 & Q3). splits; auto.
        intros Hc. apply Q3. exact (proj1 (Hcl Hc)).
  Qed.
End ZipProofs.

Section ZipRun.
  Context (A : bytes) (C : codec) (fuel0 : nat) (pol : bool) (ms : list zmember).
  Context (SK : sink) (L : sink_laws SK) (SV : saver (zck C fuel0) unit).
  Context (view0 : kl_loc L -> option node) (B : nat).
  Notation items := (zitems ms).
  Notation zeck := (zeck C fuel0).
  Notation zgood := (zgood A C fuel0 pol ms SK L view0 B).
  Notation cpos := (cpos C fuel0 ms).
  Notation csorted := (csorted C fuel0 ms).
  Notation settled := (settled L items view0).
  Notation logok := (logok A C fuel0 pol ms SK L view0 B).
  Notation via := (zm_via C fuel0).
  Hypothesis Hvalid : storable L items.
  Hypothesis Hms : Forall (mgood A C fuel0 pol B) ms.

  Definition start_of (c : option zeck) : pos := match c with Some ck => cpos ck | None => (0, 0)%nat end.

  (** What a run does. [earlier]: checkpoints older than the one it starts from. *)
  Record run_ok (c : option zeck) (earlier : list zeck) (out : zout SK C fuel0 SV) : Prop := {
    ro_inv : kl_inv L (zo_sink _ _ _ _ out);
    ro_out : outside L items view0 (zo_sink _ _ _ _ out);
    ro_good : Forall (zgood (zo_sink _ _ _ _ out))
      (rev (map fst (zo_log _ _ _ _ out)) ++ match c with Some ck => ck :: earlier | None => [] end);
    ro_sorted : csorted (rev (map fst (zo_log _ _ _ _ out)) ++ match c with Some ck => ck :: earlier | None => [] end);
    ro_log : Forall logok (zo_log _ _ _ _ out);
    ro_prog : exists ps, zo_prog _ _ _ _ out = map (frac ms) ps /\ StronglySorted ple ps /\
      Forall (fun q => ple (start_of c) q /\ inbounds ms q) ps;
    ro_logpos : Forall (fun cs => ple (start_of c) (cpos (fst cs))) (zo_log _ _ _ _ out);
    ro_res : match zo_res _ _ _ _ out with
             | Ok l => l = zip_entries (zfiles ms) /\ settled (length ms) (zo_sink _ _ _ _ out) /\
                 forall i m, (fst (start_of c) <= i)%nat -> nth_error ms i = Some m -> via m <> None -> zm_err m = EEof
             | Panic => False
             | _ => True
             end;
    ro_ck : forall c', zo_ck _ _ _ _ out = Some c' -> zgood (zo_sink _ _ _ _ out) c' /\
      (forall e, zo_res _ _ _ _ out = Err e -> e <> EStop ->
         Forall (fun c1 => ple (cpos c1) (cpos c'))
           (rev (map fst (zo_log _ _ _ _ out)) ++ match c with Some ck => ck :: earlier | None => [] end));
    ro_obj : zgood (zo_sink _ _ _ _ out) (zo_obj _ _ _ _ out);
    ro_fwd : match c with
             | Some ck => (exists sc m, ec_src ck = Some sc /\ nth_error ms (cidx C fuel0 ck) = Some m /\ gck A C fuel0 pol B m sc) ->
                 Forall (fun cs => plt (smeas C fuel0 ck) (smeas C fuel0 (fst cs))) (zo_log _ _ _ _ out)
             | None => Forall (fun cs => plt (0, 0)%nat (smeas C fuel0 (fst cs))) (zo_log _ _ _ _ out)
             end }.

  Definition run_live (c : option zeck) (io : nat -> zio) (fuel : nat) : Prop :=
    llive C fuel0 ms SK L SV B fuel io (fst (start_of c)) /\
    match c with Some ck => tight A C fuel0 pol ms B ck | None => True end.

  Lemma cidx_le st ck : zgood st ck -> (cidx C fuel0 ck <= length ms)%nat.
  Proof.
    intros ((_ & [(_ & _ & H)|(m & w & Hm & _)]) & _); [exact H|].
    assert (cidx C fuel0 ck < length ms)%nat by (apply nth_error_Some; congruence). lia.
  Qed.

  Lemma zip_resume_ok c earlier io fuel st v out :
    (forall i m, nth_error ms i = Some m -> io_ok A pol m (io i)) ->
    kl_inv L st -> outside L items view0 st ->
    match c with Some ck => Forall (zgood st) (ck :: earlier) /\ csorted (ck :: earlier) | None => True end ->
    out = zip_resume SK C fuel0 SV (zfiles ms) io fuel c st v ->
    run_ok c earlier out /\
    (run_live c io fuel -> kl_clean L st ->
       (~ saver_goes_on SV /\ zo_res _ _ _ _ out = Err EStop /\ kl_clean L (zo_sink _ _ _ _ out) /\ zo_log _ _ _ _ out <> []) \/
       if existsb enc (skipn (fst (start_of c)) ms) then zo_res _ _ _ _ out = Err EEncrypted
       else zo_res _ _ _ _ out = Ok (zip_entries (zfiles ms)) /\ kl_clean L (zo_sink _ _ _ _ out)).
  Proof.
    intros Hio Hinv Hout Hc ->. unfold zip_resume.
    set (ck := match c with Some ck => ck | None => MkEck None 0 None (Some 0%Q) None end).
    set (prior := match c with Some ck => ck :: earlier | None => [] end).
    destruct (match c with None => zip_preallocate SK (zfiles ms) st | Some _ => (st, None) end) as [s1 perr] eqn:Hpre.
    assert (H1 : kl_inv L s1 /\ outside L items view0 s1 /\ (kl_clean L st -> kl_clean L s1 /\ perr = None) /\
       (c <> None -> s1 = st /\ perr = None)).
    { destruct c as [ck'|].
      - injection Hpre as <- <-. splits; auto.
      - destruct (zip_prealloc_ok ms SK L view0 Hvalid (zfiles ms) 0 st s1 perr eq_refl Hinv Hout Hpre) as (P1 & P2 & P3).
        splits; auto. congruence. }
    destruct H1 as (I1 & O1 & Hcl1 & Hsome).
    assert (Hzero : zgood s1 (MkEck None 0 None (Some 0%Q) None)).
    { unfold Zip_proofs.zgood. splits.
      * split; [reflexivity|]. left. splits; auto. cbn. lia.
      * apply settled_0. exact O1.
      * change (cidx C fuel0 (MkEck None 0 None (Some 0%Q) None)) with 0%nat.
        replace (ckw _ _ _ _) with 0%nat; [apply part_0; exact view0|].
        unfold ckw. cbn. destruct ms as [|m l]; [reflexivity|]. cbn. destruct (via m); reflexivity. }
    destruct perr as [e|].
    { assert (c = None) by (destruct c; [destruct (Hsome ltac:(discriminate)); discriminate|reflexivity]). subst c.
      split.
      - split; cbn; auto.
        + constructor.
        + exists []. splits; auto; constructor.
        + discriminate.
      - intros _ Hcl. destruct (Hcl1 Hcl). discriminate. }
    assert (Hg : zgood s1 ck /\ Forall (zgood s1) prior /\ csorted prior /\ cpos ck = start_of c /\ ec_index ck = Z.of_nat (cidx C fuel0 ck) /\
        Forall (fun c1 => ple (cpos c1) (cpos ck)) prior).
    { destruct c as [ck'|].
      - destruct (Hsome ltac:(discriminate)) as [-> _]. destruct Hc as [Hc1 Hc2]. unfold ck, prior.
        inversion Hc1; subst. splits; auto.
        + destruct H1 as ((Hi & _) & _). exact Hi.
        + inversion Hc2; subst. constructor; [apply ple_refl|assumption].
      - unfold ck, prior. splits; auto.
        + constructor.
        + unfold Zip_proofs.cpos. cbn. f_equal. unfold ckw. cbn. destruct ms as [|m l]; [reflexivity|]. cbn. destruct (via m); reflexivity. }
    destruct Hg as (Gck & Gpr & Spr & Hp0 & Hidx & Hle).
    replace (ec_index ck <? 0) with false by (rewrite Hidx; lia).
    set (idx := Z.to_nat (ec_index ck)).
    assert (Hi' : idx = cidx C fuel0 ck) by reflexivity.
    destruct (zip_loop SK C fuel0 SV io fuel (skipn idx (zfiles ms)) idx (sum_sizes (firstn idx (zfiles ms))) (sum_sizes (zfiles ms))
       (MkZx SK C fuel0 SV s1 ck v false false [] [])) as [x r] eqn:Hloop.
    set (x0 := MkZx SK C fuel0 SV s1 ck v false false [] []) in *.
    pose proof (cidx_le _ _ Gck) as Hlen.
    assert (Hent : forall m, nth_error ms idx = Some m ->
       cshape A C fuel0 pol ms SK L B (entered C fuel0 idx m ck) /\ cpos (entered C fuel0 idx m ck) = (idx, ckw C fuel0 ms ck)).
    { intros m Hm. pose proof Gck as (G1 & _).
      pose proof G1 as (G1a & [(G4 & G5 & G6)|(m' & w & G4 & G5 & G6)]).
      + destruct (entered_fresh A C fuel0 pol ms SK L B idx m ck Hm G4 G5) as (E1 & E2 & _). split; [exact E1|]. rewrite E2.
        unfold ckw, ck_woff. rewrite <- Hi', Hm, G4. destruct (via m); reflexivity.
      + assert (He : entered C fuel0 idx m ck = ck).
        { unfold entered. rewrite G5, Hi', <- G1a, <- G5. destruct ck; reflexivity. }
        rewrite He. split; [exact G1|]. reflexivity. }
    assert (Hready : forall q0, (forall m, nth_error ms idx = Some m -> qok A C fuel0 pol ms B q0 idx m (entered C fuel0 idx m ck)) ->
       ready A C fuel0 pol ms SK L SV view0 B (cpos ck) q0 prior idx x0 (ckw C fuel0 ms ck)).
    { intros q0 Hq0. destruct Gck as (G1 & G2 & G3). split; [|split].
      - split; cbn [Zip.x_sink Zip.x_log Zip.x_prog Zip.x_stop fst snd]; auto.
        + unfold cks. cbn. apply Forall_forall. intros c1 Hc1. split; [exact (proj1 (Forall_forall _ _) Gpr c1 Hc1)|].
          exact (proj1 (Forall_forall _ _) Hle c1 Hc1).
        + constructor.
        + exists []. splits; auto; constructor.
        + apply ple_refl.
        + constructor.
        + discriminate.
      - split; [exact G1|]. split; assumption.
      - intros m Hm. destruct (Hent m Hm). splits; auto. }
    assert (Hq1 : forall m, nth_error ms idx = Some m -> qok A C fuel0 pol ms B (cpos ck) idx m (entered C fuel0 idx m ck)).
    { intros m Hm. left. rewrite (proj2 (Hent m Hm)). apply ple_refl. }
    destruct (zip_loop_ok A C fuel0 pol ms SK L SV view0 B Hvalid Hms (cpos ck) (cpos ck) prior io fuel Hio _ idx x0 x r _ eq_refl ltac:(lia) (Hready _ Hq1) Hloop)
      as [(p' & Z' & G' & R') Live].
    split.
    - destruct Z' as [J1 J2 J3 J4 J5 J6 J7 J8 J9 J10 J11]. unfold cks in J4, J5.
      assert (Jout : outside L items view0 (Zip.x_sink SK C fuel0 SV x)) by exact (proj2 (proj2 J2)).
      split; cbn [zo_sink zo_log zo_prog zo_res zo_ck zo_obj]; auto.
      + eapply Forall_impl; [|exact J4]. intros c1 [K _]. exact K.
      + destruct J7 as (ps & P1 & P2 & P3). exists ps. splits; auto.
        eapply Forall_impl; [|exact P3]. intros q (K1 & _ & K3). rewrite <- Hp0. auto.
      + clear -J5 Hp0. unfold prior in J5. destruct c as [c0|]; unfold start_of in *.
        * apply Forall_forall. intros [c1 s1] Hin. cbn [fst].
          assert (Hin' : In c1 (rev (map fst (Zip.x_log SK C fuel0 SV x)))) by (apply -> in_rev; apply (in_map fst _ (c1, s1)); exact Hin).
          revert J5 Hin'. generalize (rev (map fst (Zip.x_log SK C fuel0 SV x))). intros l. induction l as [|a l IHl]; [intros _ []|].
          intros Hs [-> |Hi]; [|inversion Hs; subst; auto].
          inversion Hs as [|? ? _ Hall]; subst. rewrite Forall_forall in Hall. apply Hall. apply in_or_app. right. left. reflexivity.
        * apply Forall_forall. intros cs _. unfold ple. cbn. lia.
      + destruct r as [u|e| |]; try contradiction; auto.
        destruct (Zip.x_stoperr SK C fuel0 SV x); [exact Logic.I|].
        destruct R' as [R'|[R1 R2]]; [discriminate|]. splits; auto.
        intros i m Hi. apply R2. rewrite <- Hp0 in Hi. exact Hi.
      + intros c' Hc'. assert (c' = Zip.x_ck SK C fuel0 SV x) by (destruct c; congruence). subst c'.
        split; [exact G'|]. intros e He Hne.
        assert (Hpp : cpos (Zip.x_ck SK C fuel0 SV x) = p').
        { destruct r as [u|e'| |]; try discriminate; [|exact R'].
          destruct (Zip.x_stoperr SK C fuel0 SV x); congruence. }
        rewrite Hpp. eapply Forall_impl; [|exact J4]. intros c1 [_ K]. exact K.
      + destruct c as [c0|]; [|rewrite Hp0 in J10; exact J10].
        intros (sc & m & Hs1 & Hs2 & Hs3).
        assert (Hq2 : forall m, nth_error ms idx = Some m -> qok A C fuel0 pol ms B (smeas C fuel0 c0) idx m (entered C fuel0 idx m ck)).
        { intros m' Hm'. assert (m' = m) by (change (nth_error ms idx = Some m) in Hs2; congruence). subst m'. right. exists sc. splits; auto.
          unfold smeas. rewrite Hs1. apply ple_refl. }
        destruct (zip_loop_ok A C fuel0 pol ms SK L SV view0 B Hvalid Hms (cpos ck) (smeas C fuel0 c0) prior io fuel Hio _ idx x0 x r _ eq_refl ltac:(lia) (Hready _ Hq2) Hloop)
          as [(p2 & [_ _ _ _ _ _ _ _ _ J12 _] & _) _]. exact J12.
    - intros [Hll Ht] Hcl. cbn [zo_sink zo_res].
      destruct (Hcl1 Hcl) as [Hcl2 _].
      rewrite <- Hp0 in Hll |- *.
      assert (Live' : forall m, nth_error ms idx = Some m -> tight A C fuel0 pol ms B (entered C fuel0 idx m (Zip.x_ck SK C fuel0 SV x0))).
      { intros m Hm. change (Zip.x_ck SK C fuel0 SV x0) with ck.
        destruct Gck as (G1 & G2 & G3).
        pose proof G1 as (G1a & [(G4 & G5 & G6)|(m' & w & G4 & G5 & G6)]).
        * exact (proj2 (proj2 (entered_fresh A C fuel0 pol ms SK L B idx m ck Hm G4 G5))).
        * assert (He : entered C fuel0 idx m ck = ck).
          { unfold entered. rewrite G5, Hi', <- G1a, <- G5. destruct ck; reflexivity. }
          rewrite He. destruct c as [c0|]; [exact Ht|discriminate]. }
      specialize (Live Hll Hcl2 eq_refl Live').
      change (fst (cpos ck)) with idx. destruct Live as [(S1 & -> & S2 & S3)|Live].
      { left. rewrite S3. splits; auto. exact (zi_stopped _ _ _ _ _ _ _ _ _ _ _ _ _ _ _ Z' S3). }
      right. destruct (existsb enc (skipn idx ms)).
      + rewrite Live. reflexivity.
      + destruct Live as (-> & Hc' & ->). auto.
  Qed.
End ZipRun.
