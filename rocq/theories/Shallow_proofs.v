(** Shallow_proofs.v -- shallow copies of the checkpoints of a zip extraction stay good. *)
From Verif Require Import Base Base_proofs Source Seek Decomp CodecSpec Contract Seek_proofs Decomp_proofs Drive SpoilSpec Stack_proofs
  Copier Sink Zip Shallow SinkSpec Settle_proofs ZipSpec Zip_proofs Keeps_proofs.
From Coq Require Import Sorted.

(** ** Save is called with the index of the entry and an entry. *)
Section Log.
  Context (SK : sink) (C : codec) (fuel0 : nat) (SV : saver (zck C fuel0) unit).
  Notation zx := (zx SK C fuel0 SV).
  Notation x_ck := (x_ck SK C fuel0 SV).
  Notation x_log := (x_log SK C fuel0 SV).

  Definition at_ (i : Z) (c : zeck C fuel0) : Prop := ec_index c = i /\ ec_entry c <> None.
  (** since [l0], everything was saved for entry [i] *)
  Definition log_at (i : Z) (l0 : list (zeck C fuel0 * k_st SK)) (x : zx) : Prop :=
    at_ i (x_ck x) /\ exists t, x_log x = l0 ++ t /\ Forall (fun cs => at_ i (fst cs)) t.

  Lemma at_set i c w : at_ i c -> at_ i (ck_set_woff C fuel0 c w).
  Proof. intros [H1 H2]. unfold ck_set_woff, at_. destruct (ec_entry c) eqn:E; cbn; [split; [exact H1|discriminate]|]. rewrite ?E. auto. Qed.
  Lemma log_at_ck i l0 x c : log_at i l0 x -> at_ i c -> log_at i l0 (zx_ck SK C fuel0 SV x c).
  Proof. intros [_ H] Hc. split; assumption. Qed.

  Lemma onsave_log {CK} inj w done total i l0 (c : sckpt CK) (x : zx) :
    log_at i l0 x -> log_at i l0 (fst (zip_on_save SK C fuel0 SV inj w done total c x)).
  Proof.
    intros ([H1 H2] & t & H3 & H4). unfold zip_on_save.
    destruct (k_sync SK (x_sink SK C fuel0 SV x) w) as [s' [e|]].
    - split; [split; assumption|]. exists t. split; assumption.
    - assert (Hs : forall s c2, at_ i c2 -> exists t', x_log x ++ [(c2, s)] = l0 ++ t' /\ Forall (fun cs : zeck C fuel0 * k_st SK => at_ i (fst cs)) t').
      { intros s c2 Hc. exists (t ++ [(c2, s)]). rewrite H3, <- app_assoc. split; [reflexivity|]. apply Forall_app. split; [exact H4|]. constructor; [exact Hc|constructor]. }
      destruct (sv_save SV _ _) as [v' [[|]|e]]; (split; [split; assumption|apply Hs; split; assumption]).
  Qed.

  Lemma copier_log k inj w done total fuel i l0 sx :
    log_at i l0 (snd sx) -> log_at i l0 (snd (fst (copier_do (zip_cenv SK C fuel0 SV (stk_source k) inj w done total) fuel sx))).
  Proof.
    intros H. unfold copier_do. apply (copy_loop_keeps _ (fun sx => log_at i l0 (snd sx))); auto.
    - intros [src x] n Hx. cbn [ce_read zip_cenv fst snd].
      pose proof (stk_read_keeps k (zip_on_save SK C fuel0 SV inj w done total) (log_at i l0)
        (onsave_log inj w done total i l0) src x n Hx) as Hk.
      destruct (s_read _ _ _ _ _) as [[src' x'] r]. exact Hk.
    - intros [src x] d Hx. cbn [ce_write zip_cenv fst snd].
      destruct (k_write SK _ w d) as [t [[n adv] e]]. cbn [snd fst]. apply log_at_ck; [exact Hx|]. apply at_set. exact (proj1 Hx).
    - intros [src x] n Hx. cbn [ce_should zip_cenv fst snd]. destruct (sv_should SV _ n). exact Hx.
  Qed.

  Lemma iocopy_log w fin i l0 : forall chunks x, log_at i l0 x -> log_at i l0 (fst (zip_io_copy SK C fuel0 SV w chunks fin x)).
  Proof.
    induction chunks as [|d ds IH]; intros x Hx; cbn [zip_io_copy]; [exact Hx|].
    destruct (k_write SK _ w d) as [t [[n adv] e]].
    assert (H1 : log_at i l0 (zx_ck SK C fuel0 SV (zx_sink SK C fuel0 SV x t) (ck_set_woff C fuel0 (x_ck x) (ck_woff C fuel0 (x_ck x) + adv)))).
    { apply log_at_ck; [exact Hx|]. apply at_set. exact (proj1 Hx). }
    destruct e; [exact H1|]. destruct (n =? length d)%nat; [|exact H1]. apply IH. exact H1.
  Qed.

  Lemma zip_copy_log fuel k inj prj rs csize done total e i l0 x : log_at i l0 x ->
    log_at i l0 (fst (zip_copy SK C fuel0 SV fuel k inj prj rs csize done total e x)).
  Proof.
    intros Hx. unfold zip_copy. destruct (s_resume _ _ _) as [src1 [off| | |]]; try exact Hx.
    destruct (if _ <? _ then _ else _) as [[src2 u] [r| | |]]; try exact Hx.
    destruct (k_getw SK _ e) as [s' [w| | |]]; try exact Hx.
    pose proof (copier_log k inj w done total fuel i l0 (s_setssc (stk_source k) src2, zx_sink SK C fuel0 SV x s') Hx) as H.
    destruct (copier_do _ _ _) as [[s2 x2] r3]. exact H.
  Qed.

  Lemma zip_entry_log io fuel i zf done total x x' r :
    zip_entry SK C fuel0 SV io fuel i zf done total x = (x', r) -> log_at i (x_log x) x'.
  Proof.
    unfold zip_entry. set (e := match ec_entry (x_ck x) with Some e => e | None => _ end).
    set (x1 := zx_ck SK C fuel0 SV x _).
    assert (H1 : log_at i (x_log x) x1).
    { split; [split; [reflexivity|discriminate]|]. exists []. rewrite app_nil_r. split; [reflexivity|constructor]. }
    destruct (Z.odd (zf_flags zf)); [intros [= <- _]; exact H1|].
    destruct (en_kind e).
    - destruct (k_mkdir SK _ e). intros [= <- _]. exact H1.
    - destruct (zi_open io) as [[chunks [e'|]]| | |]; try (intros [= <- _]; exact H1).
      destruct (k_symlink SK _ e _). intros [= <- _]. exact H1.
    - destruct ((zf_method zf =? zip_store) || (zf_method zf =? zip_deflate)).
      + destruct (zi_dataoff io) as [off| | |]; try (intros [= <- _]; exact H1).
        destruct (zf_method zf =? zip_store); intros H.
        * pose proof (zip_copy_log fuel KSeek (inj_store C fuel0) (prj_store C fuel0) (zi_section io off (wrap64 (zf_csize zf))) (wrap64 (zf_csize zf)) done total e i _ x1 H1) as Hk.
          rewrite H in Hk. exact Hk.
        * pose proof (zip_copy_log fuel (zk_deflate C fuel0) (fun c => c) (fun c => c) (zi_section io off (wrap64 (zf_csize zf))) (wrap64 (zf_csize zf)) done total e i _ x1 H1) as Hk.
          rewrite H in Hk. exact Hk.
      + set (x2 := zx_ck SK C fuel0 SV x1 _).
        assert (H2 : log_at i (x_log x) x2) by (apply log_at_ck; [exact H1|split; [reflexivity|discriminate]]).
        destruct (zi_open io) as [[chunks fin]| | |]; try (intros [= <- _]; exact H2).
        destruct (k_getw SK _ _) as [s' [w| | |]]; try (intros [= <- _]; exact H2).
        pose proof (iocopy_log w fin i (x_log x) chunks (zx_sink SK C fuel0 SV x2 s') H2) as H3.
        destruct (zip_io_copy _ _ _ _ _ _ _ _) as [x3 r3]. intros [= <- _]. exact H3.
    - intros [= <- _]. exact H1.
  Qed.

  (** later entries have greater numbers *)
  Lemma zip_loop_log io fuel total : forall files i done x x' r,
    zip_loop SK C fuel0 SV io fuel files i done total x = (x', r) ->
    exists t, x_log x' = x_log x ++ t /\ Forall (fun cs => (i <= cidx C fuel0 (fst cs))%nat /\ ec_entry (fst cs) <> None) t.
  Proof.
    induction files as [|zf rest IH]; intros i done x x' r; cbn [zip_loop].
    - intros [= <- _]. exists []. rewrite app_nil_r. auto.
    - destruct (Zip.x_stoperr SK C fuel0 SV x); [intros [= <- _]; exists []; rewrite app_nil_r; auto|].
      destruct (zip_entry SK C fuel0 SV (io i) fuel (Z.of_nat i) zf done total x) as [x1 r1] eqn:E.
      destruct (zip_entry_log _ _ _ _ _ _ _ _ _ E) as (_ & t & Ht & Hat).
      assert (H1 : Forall (fun cs : zeck C fuel0 * k_st SK => (i <= cidx C fuel0 (fst cs))%nat /\ ec_entry (fst cs) <> None) t).
      { eapply Forall_impl; [|exact Hat]. intros cs [A1 A2]. split; [|exact A2]. unfold cidx. rewrite A1. lia. }
      destruct r1; try (intros [= <- _]; exists t; auto).
      intros Hl. destruct (IH _ _ _ _ _ Hl) as (t2 & H2 & H3). cbn [Zip.x_log zx_ck] in H2.
      change (x_log x' = x_log x1 ++ t2) in H2. exists (t ++ t2). rewrite H2, Ht, <- app_assoc. split; [reflexivity|].
      apply Forall_app. split; [exact H1|]. eapply Forall_impl; [|exact H3]. intros cs [A1 A2]. split; [lia|exact A2].
  Qed.
End Log.

(** ** Shallow copies *)
Section Share.
  Context (A : bytes) (C : codec) (fuel0 : nat) (pol : bool) (ms : list zmember).
  Context (SK : sink) (L : sink_laws SK) (SV : saver (zck C fuel0) unit).
  Context (view0 : kl_loc L -> option node) (B : nat).
  Notation items := (zitems ms).
  Notation zeck := (zeck C fuel0).
  Notation zx := (zx SK C fuel0 SV).
  Notation zgood := (zgood A C fuel0 pol ms SK L view0 B).
  Notation cshape := (cshape A C fuel0 pol ms SK L B).
  Notation cpos := (cpos C fuel0 ms).
  Notation cidx := (cidx C fuel0).
  Notation ckw := (ckw C fuel0 ms).
  Notation settled := (settled L items view0).
  Notation part := (part L items).
  Notation via := (zm_via C fuel0).
  Notation x_sink := (x_sink SK C fuel0 SV).
  Notation x_ck := (x_ck SK C fuel0 SV).
  Notation x_log := (x_log SK C fuel0 SV).
  Notation shallow := (shallow C fuel0).
  Hypothesis Hvalid : storable L items.
  Hypothesis Hms : Forall (mgood A C fuel0 pol B) ms.

  Definition with_entry (c : zeck) (e : entry) : zeck := MkEck (ec_src c) (ec_index c) (Some e) (ec_prog c) (ec_data c).

  Lemma share_good st c co e i w' : cshape c -> cidx c = i -> ec_entry c <> None ->
    cshape co -> cpos co = (i, w') -> ec_entry co = Some e -> ple (cpos c) (i, w') ->
    settled i st -> part i w' st -> zgood st (with_entry c e).
  Proof.
    intros (Si & Sc) Hi Hne (_ & So) Hpo Heo Hle Hset Hpart.
    assert (Hoi : cidx co = i) by (unfold Zip_proofs.cpos in Hpo; congruence).
    assert (How : ckw co = w') by (unfold Zip_proofs.cpos in Hpo; congruence).
    destruct Sc as [(Hno & _)|(m & w & Hm & He & Hs)]; [congruence|].
    destruct So as [(Hno & _)|(m2 & w2 & Hm2 & He2 & Hs2)]; [congruence|].
    assert (m2 = m) by congruence. subst m2. rewrite Heo in He2. injection He2 as ->.
    assert (Hidx : cidx (with_entry c (set_woff (zm_entry m) (Z.of_nat w2))) = i) by exact Hi.
    rewrite Hoi in Hm2.
    assert (Hw : ckw (with_entry c (set_woff (zm_entry m) (Z.of_nat w2))) = w').
    { rewrite <- How. unfold Zip_proofs.ckw, ck_woff. rewrite Hidx, Hoi, Hm2, Heo. reflexivity. }
    assert (Hcw : ple (cpos c) (i, w') -> via m <> None -> (w <= w2)%nat /\ w' = w2).
    { intros H Hv. unfold Zip_proofs.cpos, Zip_proofs.ckw, ple in H. cbn [fst snd] in H. rewrite Hi, Hm2 in H.
      unfold Zip_proofs.ckw in How. rewrite Hoi, Hm2 in How. unfold ck_woff in H, How.
      destruct (via m); [|congruence]. rewrite He in H. rewrite Heo in How. cbn [set_woff en_woff] in H, How. rewrite Nat2Z.id in H, How. lia. }
    unfold Zip_proofs.zgood. rewrite Hidx, Hw. split; [|split; assumption].
    split; [rewrite Hidx; unfold with_entry; cbn [ec_index]; congruence|]. right. exists m, w2. rewrite Hidx. split; [exact Hm2|]. split; [reflexivity|].
    cbn [with_entry ec_src].
    destruct (via m) as [k|] eqn:Hv; [|exact Hs].
    destruct (Hcw Hle ltac:(discriminate)) as [Hw12 ->].
    destruct Hs as (H1 & H2 & H3). destruct Hs2 as (H4 & H5 & H6). split; [exact H4|]. split; [exact H5|].
    destruct (ec_src c) as [sc|]; [|exact Logic.I].
    destruct H3 as (sc0 & K1 & K2 & K3). exists sc0. split; [exact K1|]. split; [|exact K3].
    intros Hloc. specialize (K2 Hloc). lia.
  Qed.

  Lemma settled_part i m st w : nth_error ms i = Some m -> (w <= length (zm_data m))%nat -> settled (Datatypes.S i) st -> part i w st.
  Proof.
    intros Hm Hw (H1 & _ & _) e D l Hit Hl Hlast Hpos.
    assert (Hi2 : nth_error items i = Some (zm_item m)) by (apply map_nth_error; exact Hm).
    exists D. split; [exact (H1 i e (NFile D) l ltac:(lia) Hit Hl Hlast)|]. split; [|reflexivity].
    rewrite Hi2 in Hit. injection Hit as He Hn. unfold zm_node in Hn. destruct (en_kind (zm_entry m)); try discriminate; injection Hn as <-; exact Hw.
  Qed.

  Lemma shape_w c i m w : cshape c -> cpos c = (i, w) -> nth_error ms i = Some m -> (w <= length (zm_data m))%nat.
  Proof.
    intros (_ & Hs) Hp Hm. assert (Hi : cidx c = i) by (unfold Zip_proofs.cpos in Hp; congruence).
    assert (Hw : ckw c = w) by (unfold Zip_proofs.cpos in Hp; congruence). subst w. unfold Zip_proofs.ckw. rewrite Hi, Hm.
    destruct (via m) eqn:Hv; [|lia]. unfold ck_woff.
    destruct Hs as [(-> & _)|(m' & w & Hm' & -> & Hs)]; [cbn; lia|].
    rewrite Hi, Hm in Hm'. injection Hm' as <-. rewrite Hv in Hs. cbn [en_woff set_woff]. rewrite Nat2Z.id. exact (proj1 Hs).
  Qed.

  Lemma object_lt os c : (forall j e, In (j, e) os -> (cidx c < j)%nat) -> shallow os c = c.
  Proof.
    intros H. unfold Shallow.shallow. destruct (ec_entry c); [|reflexivity].
    replace (object (Z.to_nat (ec_index c)) os) with (@None entry); [reflexivity|]. symmetry. change (Z.to_nat (ec_index c)) with (cidx c).
    induction os as [|[j e'] os IH]; [reflexivity|]. cbn [object].
    pose proof (H j e' (or_introl eq_refl)). replace (cidx c =? j)%nat with false by (symmetry; apply Nat.eqb_neq; lia).
    apply IH. intros j0 e0 Hj0. exact (H j0 e0 (or_intror Hj0)).
  Qed.
  Lemma objects_from io fuel total : forall files i done (x : zx) j e,
    In (j, e) (zip_objects SK C fuel0 SV io fuel files i done total x) -> (i <= j)%nat.
  Proof.
    induction files as [|zf rest IH]; intros i done x j e; cbn [zip_objects]; [intros []|].
    destruct (Zip.x_stoperr SK C fuel0 SV x); [intros []|].
    destruct (zip_entry _ _ _ _ _ _ _ _ _ _ x) as [x' r]. intros Hin. apply in_app_or in Hin. destruct Hin as [Hin|Hin].
    - destruct (ec_entry (x_ck x')); [|destruct Hin]. destruct Hin as [[= <- _]|[]]. lia.
    - destruct r; try (destruct Hin). specialize (IH _ _ _ _ _ Hin). lia.
  Qed.

  Section Run.
  Context (p0 q0 : pos) (prior : list zeck).
  Notation ZI := (ZI A C fuel0 pol ms SK L SV view0 B p0 q0 prior).
  Notation ready := (ready A C fuel0 pol ms SK L SV view0 B p0 q0 prior).
  Notation cks := (cks C fuel0 SK SV prior).

  Lemma loop_share io fuel : (forall i m, nth_error ms i = Some m -> io_ok A pol m (io i)) ->
    forall rest i x x' r w0, rest = skipn i (zfiles ms) -> (i <= length ms)%nat -> ready i x w0 ->
    zip_loop SK C fuel0 SV io fuel rest i (doneZ ms i) (sum_sizes (zfiles ms)) x = (x', r) ->
    settled i (x_sink x') /\
    forall c, In c (cks x') ->
      zgood (x_sink x') (shallow (zip_objects SK C fuel0 SV io fuel rest i (doneZ ms i) (sum_sizes (zfiles ms)) x) c).
  Proof.
    intros Hio. induction rest as [|zf rest IH]; intros i x x' r w0 Hrest Hi Hr Hloop.
    - cbn [zip_loop] in Hloop. injection Hloop as <- <-. destruct Hr as (HZ & _ & _). cbn [zip_objects].
      split; [exact (zi_settled _ _ _ _ _ _ _ _ _ _ _ _ _ _ _ HZ)|].
      intros c Hc. unfold Shallow.shallow. cbn [object].
      pose proof (zi_lin _ _ _ _ _ _ _ _ _ _ _ _ _ _ _ HZ) as Hl. rewrite Forall_forall in Hl.
      destruct (ec_entry c); exact (proj1 (Hl c Hc)).
    - destruct (zip_loop_ok A C fuel0 pol ms SK L SV view0 B Hvalid Hms p0 q0 prior io fuel Hio _ i x x' r w0 Hrest Hi Hr Hloop) as [(p' & Zf & _ & _) _].
      pose proof (zi_lin _ _ _ _ _ _ _ _ _ _ _ _ _ _ _ Zf) as Hlf. rewrite Forall_forall in Hlf.
      destruct (nth_error ms i) as [m|] eqn:Hm.
      2:{ exfalso. apply nth_error_None in Hm. rewrite skipn_all2 in Hrest; [discriminate|]. unfold zfiles. rewrite map_length. lia. }
      pose proof (skipn_files ms i m Hm) as Hs. rewrite Hs in Hrest. injection Hrest as -> Hrest.
      destruct Hr as (HZ & Hg & Hent). destruct (Hent m Hm) as (Hsh & Hpos & Hqok).
      cbn [zip_loop zip_objects] in Hloop |- *.
      destruct (Zip.x_stoperr SK C fuel0 SV x) eqn:Hse.
      { injection Hloop as <- <-. split; [exact (zi_settled _ _ _ _ _ _ _ _ _ _ _ _ _ _ _ HZ)|].
        intros c Hc. unfold Shallow.shallow. cbn [object]. destruct (ec_entry c); exact (proj1 (Hlf c Hc)). }
      destruct (Zip.zip_entry SK C fuel0 SV (io i) fuel (Z.of_nat i) (zm_file m) (doneZ ms i) (sum_sizes (zfiles ms)) x) as [x1 r1] eqn:He.
      destruct (zip_entry_ok A C fuel0 pol ms SK L SV view0 B Hvalid Hms p0 q0 prior i m (io i) fuel x x1 r1 w0 Hm (Hio i m Hm) Hsh Hpos HZ Hqok He)
        as ((w' & Z1 & Sh1 & P1 & R1) & _).
      destruct (zip_entry_log SK C fuel0 SV _ _ _ _ _ _ _ _ _ He) as ((_ & Hne1) & _).
      destruct (ec_entry (x_ck x1)) as [e1|] eqn:He1; [|congruence]. clear Hne1.
      pose proof (zi_lin _ _ _ _ _ _ _ _ _ _ _ _ _ _ _ Z1) as Hl1. rewrite Forall_forall in Hl1.
      (* a checkpoint held at the end of this entry, at a final state of the sink *)
      assert (Hone : forall st os c, In c (cks x1) -> zgood st c -> settled i st -> part i w' st ->
        (forall j e, In (j, e) os -> (i < j)%nat) -> zgood st (shallow ((i, e1) :: os) c)).
      { intros st os c Hc Hgc Hst Hpt Hos. destruct (Hl1 c Hc) as [_ Hple].
        unfold Shallow.shallow. destruct (ec_entry c) as [ec|] eqn:Hec; [|exact Hgc].
        change (Z.to_nat (ec_index c)) with (cidx c). cbn [object].
        destruct (cidx c =? i)%nat eqn:Hci.
        - apply Nat.eqb_eq in Hci. apply (share_good st c (x_ck x1) e1 i w'); auto; [exact (proj1 Hgc)|congruence].
        - apply Nat.eqb_neq in Hci. assert (cidx c < i)%nat by (unfold ple, Zip_proofs.cpos in Hple; cbn [fst snd] in Hple; lia).
          destruct (object (cidx c) os) eqn:Ho; [|exact Hgc]. exfalso. clear - Ho Hos H.
          induction os as [|[j ej] os IH]; [discriminate|]. cbn [object] in Ho. destruct (cidx c =? j)%nat eqn:E.
          + apply Nat.eqb_eq in E. pose proof (Hos j ej (or_introl eq_refl)). lia.
          + apply IH; [|exact Ho]. intros j0 e0 H0. exact (Hos j0 e0 (or_intror H0)). }
      assert (Hfin : x_sink x' = x_sink x1 -> (forall c, In c (cks x') -> In c (cks x1)) ->
        settled i (x_sink x') /\ forall c, In c (cks x') -> zgood (x_sink x') (shallow [(i, e1)] c)).
      { intros Hsk Hck. rewrite Hsk. split; [exact (zi_settled _ _ _ _ _ _ _ _ _ _ _ _ _ _ _ Z1)|].
        intros c Hc. apply Hone; [exact (Hck c Hc)|exact (proj1 (Hl1 c (Hck c Hc)))|exact (zi_settled _ _ _ _ _ _ _ _ _ _ _ _ _ _ _ Z1)|exact (zi_part _ _ _ _ _ _ _ _ _ _ _ _ _ _ _ Z1)|intros j e []]. }
      destruct r1 as [u|e| |]; try contradiction.
      2,3: injection Hloop as <- <-; rewrite app_nil_r; apply Hfin; auto.
      rewrite (doneZ_S ms i m Hm) in Hloop |- *.
      set (x2 := zx_ck SK C fuel0 SV x1 _) in *.
      destruct R1 as [Hstop|[Hset Htm]].
      + assert (Hst2 : Zip.x_stoperr SK C fuel0 SV x2 = true) by exact Hstop.
        assert (Hl0 : (x', r) = (x2, Ok tt)) by (rewrite <- Hloop; destruct rest; cbn [zip_loop]; rewrite ?Hst2; reflexivity).
        injection Hl0 as -> ->.
        replace (zip_objects SK C fuel0 SV io fuel rest (Datatypes.S i) (doneZ ms (Datatypes.S i)) (sum_sizes (zfiles ms)) x2) with (@nil (nat * entry))
          by (destruct rest; cbn [zip_objects]; rewrite ?Hst2; reflexivity).
        rewrite app_nil_r. apply Hfin; auto.
      + assert (Hc2 : cidx (x_ck x2) = i) by (change (cidx (x_ck x2)) with (cidx (x_ck x1)); unfold Zip_proofs.cpos in P1; congruence).
        assert (Hi1 : (i < length ms)%nat) by (apply nth_error_Some; congruence).
        assert (Sh2 : cshape (x_ck x2)).
        { split.
          - change (ec_index (x_ck x2)) with (ec_index (x_ck x1)). rewrite Hc2. rewrite (proj1 Sh1). f_equal. unfold Zip_proofs.cpos in P1. congruence.
          - left. rewrite Hc2. split; [reflexivity|]. split; [reflexivity|]. lia. }
        assert (W2 : ckw (x_ck x2) = 0%nat).
        { unfold Zip_proofs.ckw. rewrite Hc2, Hm. destruct (via m); reflexivity. }
        assert (G2 : zgood (x_sink x2) (x_ck x2)).
        { unfold Zip_proofs.zgood. rewrite Hc2, W2. split; [exact Sh2|]. split; [exact (zi_settled _ _ _ _ _ _ _ _ _ _ _ _ _ _ _ Z1)|apply part_0; exact view0]. }
        assert (Z2 : ZI (Datatypes.S i, 0%nat) x2).
        { eapply (ZI_pos _ _ _ _ _ _ _ _ _ _ _ _ _ (i, w')).
          - eapply ZI_same; [exact Z1|reflexivity..|exact (zi_stop _ _ _ _ _ _ _ _ _ _ _ _ _ _ _ Z1)].
          - left. cbn. lia.
          - exact Hset.
          - apply part_0; exact view0. }
        assert (Hqn : ple q0 (Datatypes.S i, 0%nat)).
        { destruct Hqok as [Hq|(sc & _ & _ & Hq)]; [rewrite Hpos in Hq|]; unfold ple in *; cbn [fst snd] in *; lia. }
        destruct (IH (Datatypes.S i) x2 x' r 0%nat Hrest ltac:(lia)) as [Hsf Hsh']; [|exact Hloop|].
        { split; [exact Z2|]. split; [exact G2|]. intros m2 Hm2.
          destruct (entered_fresh A C fuel0 pol ms SK L B _ _ (x_ck x2) Hm2 eq_refl eq_refl) as (F1 & F2 & _). split; [exact F1|]. split; [exact F2|].
          left. rewrite F2. exact Hqn. }
        assert (Hsi : settled i (x_sink x')) by (eapply settled_mono; [|exact Hsf]; lia).
        split; [exact Hsi|].
        assert (Hpt : part i w' (x_sink x')) by exact (settled_part i m _ w' Hm (shape_w (x_ck x1) i m w' Sh1 P1 Hm) Hsf).
        intros c Hc. destruct (zip_loop_log SK C fuel0 SV _ _ _ _ _ _ _ _ _ Hloop) as (t & Ht & Hta).
        assert (Hcase : In c (cks x1) \/ (Datatypes.S i <= cidx c)%nat).
        { unfold Zip_proofs.cks in Hc |- *. change (x_log x2) with (x_log x1) in Ht. rewrite Ht, map_app, rev_app_distr, <- app_assoc in Hc.
          apply in_app_or in Hc. destruct Hc as [Hc|Hc]; [right|left; exact Hc]. apply in_rev in Hc. apply in_map_iff in Hc.
          destruct Hc as ([c0 s0] & E0 & H0). cbn [fst] in E0. subst c0. rewrite Forall_forall in Hta. exact (proj1 (Hta _ H0)). }
        destruct Hcase as [Hc1|Hge].
        * apply Hone; auto; [exact (proj1 (Hlf c Hc))|]. intros j e Hin. apply objects_from in Hin. lia.
        * specialize (Hsh' c Hc). unfold Shallow.shallow in Hsh' |- *. destruct (ec_entry c); [|exact Hsh'].
          change (Z.to_nat (ec_index c)) with (cidx c) in *. cbn [object app].
          replace (cidx c =? i)%nat with false by (symmetry; apply Nat.eqb_neq; lia). exact Hsh'.
  Qed.
  End Run.

  Lemma zip_resume_share c earlier io fuel st v out :
    (forall i m, nth_error ms i = Some m -> io_ok A pol m (io i)) ->
    kl_inv L st -> outside L items view0 st ->
    match c with Some ck => Forall (zgood st) (ck :: earlier) /\ csorted C fuel0 ms (ck :: earlier) | None => True end ->
    out = zip_resume SK C fuel0 SV (zfiles ms) io fuel c st v ->
    (forall c1, In c1 (rev (map fst (zo_log _ _ _ _ out)) ++ match c with Some ck => ck :: earlier | None => [] end) ->
       zgood (zo_sink _ _ _ _ out) (shallow (zip_resume_objects SK C fuel0 SV (zfiles ms) io fuel c st v) c1)) /\
    Forall (fun cs => ec_entry (fst cs) <> None) (zo_log _ _ _ _ out).
  Proof.
    intros Hio Hinv Hout Hc ->. unfold zip_resume, zip_resume_objects. cbv zeta.
    set (ck := match c with Some ck => ck | None => MkEck None 0 None (Some 0%Q) None end).
    set (prior := match c with Some ck => ck :: earlier | None => [] end).
    destruct (match c with None => zip_preallocate SK (zfiles ms) st | Some _ => (st, None) end) as [s1 perr] eqn:Hpre.
    assert (H1 : kl_inv L s1 /\ outside L items view0 s1 /\ (kl_clean L st -> kl_clean L s1 /\ perr = None) /\
       (c <> None -> s1 = st /\ perr = None)).
    { destruct c as [ck'|].
      - injection Hpre as <- <-. splits; auto.
      - destruct (zip_prealloc_ok ms SK L view0 Hvalid (zfiles ms) 0 st s1 perr eq_refl Hinv Hout Hpre) as (P1 & P2 & P3).
        splits; auto. congruence. }
    destruct H1 as (I1 & O1 & Hcl1 & Hsome).
    assert (Hzero : zgood s1 (MkEck None 0 None (Some 0%Q) None)).
    { unfold Zip_proofs.zgood. splits.
      * split; [reflexivity|]. left. splits; auto. cbn. lia.
      * apply settled_0. exact O1.
      * change (cidx (MkEck None 0 None (Some 0%Q) None)) with 0%nat.
        replace (Zip_proofs.ckw _ _ _ _) with 0%nat; [apply part_0; exact view0|].
        unfold Zip_proofs.ckw. cbn. destruct ms as [|m l]; [reflexivity|]. cbn. destruct (via m); reflexivity. }
    destruct perr as [e|].
    { assert (c = None) by (destruct c; [destruct (Hsome ltac:(discriminate)); discriminate|reflexivity]). subst c.
      cbn. split; [|constructor]. intros c1 []. }
    assert (Hg : zgood s1 ck /\ Forall (zgood s1) prior /\ csorted C fuel0 ms prior /\ cpos ck = start_of C fuel0 ms c /\ ec_index ck = Z.of_nat (cidx ck) /\
        Forall (fun c1 => ple (cpos c1) (cpos ck)) prior).
    { destruct c as [ck'|].
      - destruct (Hsome ltac:(discriminate)) as [-> _]. destruct Hc as [Hc1 Hc2]. unfold ck, prior.
        inversion Hc1; subst. splits; auto.
        + destruct H1 as ((Hi & _) & _). exact Hi.
        + inversion Hc2; subst. constructor; [apply ple_refl|assumption].
      - unfold ck, prior. splits; auto.
        + constructor.
        + unfold Zip_proofs.cpos. cbn. f_equal. unfold Zip_proofs.ckw. cbn. destruct ms as [|m l]; [reflexivity|]. cbn. destruct (via m); reflexivity. }
    destruct Hg as (Gck & Gpr & Spr & Hp0 & Hidx & Hle).
    replace (ec_index ck <? 0) with false by (rewrite Hidx; lia).
    set (idx := Z.to_nat (ec_index ck)).
    assert (Hi' : idx = cidx ck) by reflexivity.
    destruct (zip_loop SK C fuel0 SV io fuel (skipn idx (zfiles ms)) idx (sum_sizes (firstn idx (zfiles ms))) (sum_sizes (zfiles ms))
       (MkZx SK C fuel0 SV s1 ck v false false [] [])) as [x r] eqn:Hloop.
    set (x0 := MkZx SK C fuel0 SV s1 ck v false false [] []) in *.
    pose proof (cidx_le A C fuel0 pol ms SK L view0 B _ _ Gck) as Hlen.
    assert (Hent : forall m, nth_error ms idx = Some m ->
       cshape (entered C fuel0 idx m ck) /\ cpos (entered C fuel0 idx m ck) = (idx, ckw ck)).
    { intros m Hm. pose proof Gck as (G1 & _).
      pose proof G1 as (G1a & [(G4 & G5 & G6)|(m' & w & G4 & G5 & G6)]).
      + destruct (entered_fresh A C fuel0 pol ms SK L B idx m ck Hm G4 G5) as (E1 & E2 & _). split; [exact E1|]. rewrite E2.
        unfold Zip_proofs.ckw, ck_woff. rewrite <- Hi', Hm, G4. destruct (via m); reflexivity.
      + assert (He : entered C fuel0 idx m ck = ck).
        { unfold entered. rewrite G5, Hi', <- G1a, <- G5. destruct ck; reflexivity. }
        rewrite He. split; [exact G1|]. reflexivity. }
    assert (Hready : forall q0, (forall m, nth_error ms idx = Some m -> qok A C fuel0 pol ms B q0 idx m (entered C fuel0 idx m ck)) ->
       ready A C fuel0 pol ms SK L SV view0 B (cpos ck) q0 prior idx x0 (ckw ck)).
    { intros q0 Hq0. destruct Gck as (G1 & G2 & G3). split; [|split].
      - split; cbn [Zip.x_sink Zip.x_log Zip.x_prog Zip.x_stop fst snd]; auto.
        + unfold cks. cbn. apply Forall_forall. intros c1 Hc1. split; [exact (proj1 (Forall_forall _ _) Gpr c1 Hc1)|].
          exact (proj1 (Forall_forall _ _) Hle c1 Hc1).
        + constructor.
        + exists []. splits; auto; constructor.
        + apply ple_refl.
        + constructor.
        + discriminate.
      - split; [exact G1|]. split; assumption.
      - intros m Hm. destruct (Hent m Hm). splits; auto. }
    assert (Hq1 : forall m, nth_error ms idx = Some m -> qok A C fuel0 pol ms B (cpos ck) idx m (entered C fuel0 idx m ck)).
    { intros m Hm. left. rewrite (proj2 (Hent m Hm)). apply ple_refl. }
    split.
    - exact (proj2 (loop_share (cpos ck) (cpos ck) prior io fuel Hio _ idx x0 x r _ eq_refl ltac:(lia) (Hready _ Hq1) Hloop)).
    - destruct (zip_loop_log SK C fuel0 SV _ _ _ _ _ _ _ _ _ Hloop) as (t & Ht & Hta). cbn [zo_log].
      rewrite Ht. eapply Forall_impl; [|exact Hta]. intros cs [_ H]. exact H.
  Qed.

  (** The later of two shallow copies is never behind. *)
  Lemma shallow_pos os c1 c2 : ec_entry c1 <> None -> ec_entry c2 <> None -> ple (cpos c2) (cpos c1) ->
    ple (cpos (shallow os c2)) (cpos (shallow os c1)).
  Proof.
    assert (Hi : forall c, cidx (shallow os c) = cidx c).
    { intros c. unfold Shallow.shallow. destruct (ec_entry c); [|reflexivity]. destruct (object _ os); reflexivity. }
    intros H1 H2 [H|[H Hw]]; [left; cbn [fst Zip_proofs.cpos] in *; rewrite !Hi; exact H|].
    cbn [fst snd Zip_proofs.cpos] in H, Hw. right. cbn [fst snd Zip_proofs.cpos]. split; [rewrite !Hi; exact H|].
    unfold Zip_proofs.ckw, ck_woff in *. rewrite !Hi, H in *. destruct (nth_error ms (cidx c1)) as [m|]; [|lia]. destruct (via m); [|lia].
    unfold Shallow.shallow. unfold Zip_proofs.cidx in H. rewrite H.
    destruct (ec_entry c1) as [e1|] eqn:E1; [|congruence]. destruct (ec_entry c2) as [e2|] eqn:E2; [|congruence].
    destruct (object _ os) as [e|]; cbn [ec_entry]; [lia|]. rewrite E1, E2. exact Hw.
  Qed.
  Lemma shallow_sorted os l : Forall (fun c => ec_entry c <> None) l -> csorted C fuel0 ms l -> csorted C fuel0 ms (map (shallow os) l).
  Proof.
    induction l as [|c l IH]; intros Hn Hs; [constructor|]. inversion Hn as [|? ? N1 N2]; subst. inversion Hs as [|? ? S1 S2]; subst.
    cbn [map]. constructor; [apply IH; assumption|]. apply Forall_map. rewrite Forall_forall in *.
    intros c2 Hc2. apply shallow_pos; auto.
  Qed.
End Share.
