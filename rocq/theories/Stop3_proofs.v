(** Stop3_proofs.v -- the same for the tar extractor, and errors that are savior.ErrStop. *)
From Verif Require Import Base Base_proofs Source Seek Decomp Drive Copier Sink Zip Tar StopSpec Stop_proofs Stop2_proofs.

(** ** Tar *)
Section TarStop.
  Context (SK : sink) (F : tfmt) (S : source) (SV : saver (s_ck S) tstate) (fth : bool).
  Context (f : bool) (HS : saves_once S f) (Hf : fth = true -> f = true).
  Notation V := (watched SV).
  Notation tx := (tx SK S V).
  Notation t_sink := (t_sink SK S V). Notation t_sv := (t_sv SK S V). Notation t_log := (t_log SK S V).
  Notation t_stop := (t_stop SK S V). Notation t_stoperr := (t_stoperr SK S V). Notation t_ck := (t_ck SK S V).
  Notation clean := (h_clean SK fth). Notation hstop := (h_stop SK fth). Notation hfail := (h_fail SK fth).

  Definition tclean (x : tx) : Prop := clean (snd (t_sv x)) (t_log x) /\ (t_stoperr x = None \/ t_stoperr x = Some EEof).
  Definition tstop (x : tx) (s : k_st SK) : Prop := hstop (snd (t_sv x)) (t_log x) s /\ t_stoperr x = Some EStop.
  Definition tfail (x : tx) : Prop := hfail (snd (t_sv x)) (t_log x).
  Definition twritten (w : k_w SK) (x : tx) : Prop := exists s d, tstop x s /\ t_sink x = fst (k_write SK s w d) /\ t_stop x = true.
  Definition tstopped (x : tx) : Prop := exists s w d, tstop x s /\ t_sink x = fst (k_closew SK (fst (k_write SK s w d)) w).
  Definition tphase (x : tx) (r : res unit) : Prop :=
    tclean x \/ (tstopped x /\ (r = Ok tt \/ exists e, r = Err e)) \/ (tfail x /\ exists e, r = Err e).

  Lemma t_on_save_phases prog s sc x : tclean x ->
    let '(x', r) := tar_on_save SK S V prog s sc x in
    match r with
    | COk => tclean x' \/ (tstop x' (t_sink x') /\ t_stop x' = true)
    | CErr e => e <> EEof /\ (tclean x' \/ (fth = true /\ tfail x'))
    | CPanic => False
    end.
  Proof using Type.
    intros [H1 H2]. unfold tar_on_save. cbv zeta. cbn [watched sv_save]. destruct x as [sk ck ts [v h] st se pr lg]. cbn in *.
    match goal with |- context[sv_save SV v ?c] => destruct (sv_save SV v c) as [v' a]; pose proof (h_cases SK fth h lg c sk a H1) as HC end.
    destruct a as [[|]|e]; cbn in *.
    - right. split; [split|]; cbn; auto.
    - left. split; cbn; auto.
    - split; [destruct e; discriminate|]. destruct HC as [HC|HC]; [right; exact HC|left]. split; cbn; auto.
  Qed.

  Lemma tcopy_phases w fuel src sr x x' r : tclean x -> copier_do (tar_cenv SK F S V w) fuel (src, sr, x) = (x', r) ->
    tclean (snd x') \/ (twritten w (snd x') /\ (r = Ok tt \/ exists e, r = Err e)) \/ (tfail (snd x') /\ exists e, r = Err e).
  Proof using HS Hf.
    intros Hx Hd.
    refine (loop_phases (tar_cenv SK F S V w) (fun X => tclean (snd X)) (fun X => tstop (snd X) (t_sink (snd X)) /\ t_stop (snd X) = true) (fun X => twritten w (snd X))
      (fun X => tfail (snd X)) (fun X => tfail (snd X)) _ _ _ _ _ _ fuel _ 0 x' r (or_introl _) Hd).
    - intros [[src1 s1] y] n x1 r1 Hy. cbn [tar_cenv ce_read fst snd]. unfold sr_read.
      destruct (Nat.min n (sr_nb s1)) as [|n']; [intros [= <- <-]; left; exact Hy|].
      destruct (s_read S _ src1 y _) as [[src2 y'] rr] eqn:Er.
      destruct (HS _ _ _ _ _ _ _ _ Er) as [->|(c & -> & Hc)].
      { intros H. left. destruct rr; injection H as <- <-; exact Hy. }
      pose proof (t_on_save_phases (s_progress S src1) s1 c y Hy) as HP. destruct (tar_on_save _ _ _ _ _ c y) as [y1 [|e|]]; cbn [fst snd] in *.
      + destruct Hc as (d & e' & ->). intros [= <- <-]. cbn [snd]. destruct HP as [HP|HP]; [left; exact HP|right; left; split; eauto].
      + destruct HP as [Hn [HP|[Ht HP]]].
        * intros H. left. destruct rr; injection H as <- <-; exact HP.
        * rewrite (Hf Ht) in Hc. destruct Hc as (d & ->). intros [= <- <-]. cbn [snd]. right. right. split; [exact HP|].
          exists d, e. split; [|exact Hn]. destruct e; try reflexivity. contradiction.
      + destruct HP.
    - intros [[src1 s1] y] d. cbn [tar_cenv ce_write fst snd]. destruct (k_write SK (t_sink y) w d) as [s' [[m adv] e]] eqn:Ew. cbn [fst snd].
      split; [|split].
      + intros [A B]. split; auto.
      + intros ((A & B) & D). exists (t_sink y), d. split; [split; auto|]. split; [|exact D]. change (s' = fst (k_write SK (t_sink y) w d)). rewrite Ew. reflexivity.
      + intros A. exact A.
    - intros [[src1 s1] [sk ck ts [v h] st se pr lg]] n.
      assert (HV : exists v' b, ce_should (tar_cenv SK F S V w) (src1, s1, MkTx SK S V sk ck ts (v, h) st se pr lg) n = ((src1, s1, MkTx SK S V sk ck ts (v', h) st se pr lg), b)).
      { pose proof (watched_should SV (v, h) n) as HW. cbn [tar_cenv ce_should fst snd Tar.t_sv] in *.
        destruct (sv_should V (v, h) n) as [[v' h'] b]. cbn in HW. subst h'. exists v', b. reflexivity. }
      destruct HV as (v' & b & ->). cbn. split; auto.
    - intros [[src1 s1] y]. cbn. auto.
    - intros [[src1 s1] y]. cbn. split; [|split]; auto.
    - intros [[src1 s1] y] (s & d & _ & _ & H). exact H.
    - cbn. exact Hx.
  Qed.

  Lemma tar_extract_phases fuel src s e x src' s' x' r : tclean x ->
    tar_extract SK F S V fuel src s e x = (src', s', x', r) -> tphase x' r.
  Proof using HS Hf.
    intros Hx. unfold tar_extract. destruct (en_kind e).
    - destruct (k_mkdir SK _ e) as [st' [er|]]; intros [= <- <- <- <-]; left; exact Hx.
    - destruct (k_symlink SK _ e _) as [st' [er|]]; intros [= <- <- <- <-]; left; exact Hx.
    - destruct (k_getw SK _ e) as [st' [w| | |]]; try (intros [= <- <- <- <-]; left; exact Hx).
      match goal with |- context[copier_do ?E ?fu ?X] => destruct (copier_do E fu X) as [X' r3] eqn:Ed end.
      pose proof (tcopy_phases w fuel src s (tx_sink SK S V x st') X' r3 Hx Ed) as HP. destruct X' as [[src2 s2] x2]. cbn [snd] in HP.
      assert (HW : twritten w x2 -> forall y, t_sv y = t_sv x2 -> t_log y = t_log x2 -> t_stoperr y = t_stoperr x2 ->
        t_sink y = fst (k_closew SK (t_sink x2) w) -> tstopped y).
      { intros (s0 & d & (A & B) & D & _) y Y1 Y2 Y3 Y4. exists s0, w, d. split; [split; [rewrite Y1, Y2; exact A|rewrite Y3; exact B]|].
        rewrite Y4, D. reflexivity. }
      destruct r3 as [u|er| |]; intros [= <- <- <- <-]; destruct HP as [HP|[(HP & [HR|(e0 & HR)])|(HP & e0 & HR)]]; try discriminate.
      + left. exact HP.
      + right. left. split; [|auto]. apply (HW HP); reflexivity.
      + left. exact HP.
      + right. left. split; [|eauto]. apply (HW HP); reflexivity.
      + right. right. split; [exact HP|eauto].
      + left. exact HP.
      + left. exact HP.
    - intros [= <- <- <- <-]. left. exact Hx.
  Qed.

  Lemma tar_iter_phases fuel src s i x src' s' x' r : tclean x ->
    tar_iter SK F S V fuel src s i x = (src', s', x', r) -> tphase x' r.
  Proof using HS Hf.
    intros Hx. unfold tar_iter. cbv zeta. cbn [ec_entry]. destruct (ec_entry _) as [e|].
    - apply tar_extract_phases. exact Hx.
    - destruct (sr_next F S fuel src s) as [[src1 s1] [h|er| |]].
      + destruct (tar_entry_of h) as [e|]; [apply tar_extract_phases; exact Hx|]. intros [= <- <- <- <-]. left. exact Hx.
      + destruct er; intros [= <- <- <- <-]; left; try exact Hx. destruct Hx as [A B]. split; [exact A|right; reflexivity].
      + intros [= <- <- <- <-]; left; exact Hx.
      + intros [= <- <- <- <-]; left; exact Hx.
  Qed.

  Lemma tar_loop_phases fuel : forall lf src s i x x' r, tclean x -> tar_loop SK F S V fuel lf src s i x = (x', r) -> tphase x' r.
  Proof using HS Hf.
    induction lf as [|lf IH]; intros src s i x x' r Hx; cbn [tar_loop].
    - destruct (t_stoperr x); intros [= <- <-]; left; exact Hx.
    - destruct (t_stoperr x) eqn:Hse; [intros [= <- <-]; left; exact Hx|].
      destruct (tar_iter _ _ _ _ _ _ _ _ x) as [[[src1 s1] x1] r1] eqn:Ei. pose proof (tar_iter_phases _ _ _ _ _ _ _ _ _ Hx Ei) as HP.
      destruct r1 as [u|er| |].
      + destruct HP as [HP|[(HP & _)|(_ & e & HP)]]; [apply IH; exact HP| |discriminate].
        intros HL. assert (Hd : x' = x1 /\ r = Ok tt).
        { destruct HP as (s0 & w & d & (_ & B) & _). destruct lf; cbn [tar_loop] in HL; rewrite B in HL; injection HL as <- <-; auto. }
        destruct Hd as [-> ->]. right. left. auto.
      + intros [= <- <-]. destruct HP as [HP|[(HP & _)|(HP & _)]]; unfold tphase; cbn [ws]; eauto 7.
      + intros [= <- <-]. destruct HP as [HP|[(_ & [HP|(e & HP)])|(_ & e & HP)]]; try discriminate. left. exact HP.
      + intros [= <- <-]. destruct HP as [HP|[(_ & [HP|(e & HP)])|(_ & e & HP)]]; try discriminate. left. exact HP.
  Qed.
End TarStop.

(** ** No error is savior.ErrStop, unless the consumer asked to stop *)
Lemma with_stack_no_stop e : e <> EStop -> with_stack e <> EStop.
Proof. destruct e; cbn; congruence. Qed.
Lemma ws_no_stop {A} (r : res A) : r <> Err EStop -> ws r <> Err EStop.
Proof. destruct r; cbn; try congruence. intros H [= E]. apply (with_stack_no_stop e); congruence. Qed.

Section ZipQuiet.
  Context (SK : sink) (C : codec) (fuel0 : nat) (SV : saver (zck C fuel0) unit).
  Hypothesis HK : sink_no_stop SK.
  Hypothesis HV : saver_no_stop SV.
  Notation zx := (zx SK C fuel0 SV).

  Lemma on_save_quiet {CK} (inj : sckpt CK -> sckpt (zck C fuel0)) w done total : cb_quiet (zip_on_save SK C fuel0 SV inj w done total).
  Proof.
    intros sc x. unfold zip_on_save. destruct HK as (_ & _ & _ & _ & _ & HK6).
    pose proof (HK6 (Zip.x_sink _ _ _ _ x) w) as H1. destruct (k_sync SK _ w) as [s' [e|]].
    - cbn in *. intros [= E]. apply (with_stack_no_stop e); congruence.
    - cbv zeta. match goal with |- context[sv_save SV ?v ?c] => pose proof (HV v c) as H2; destruct (sv_save SV v c) as [v' [[|]|e]] end; cbn in *; try discriminate.
      intros [= E]. apply (with_stack_no_stop e); congruence.
  Qed.
  Lemma zcopy_quiet k inj w done total fuel src x x' r : stk_quiet k src ->
    copier_do (zip_cenv SK C fuel0 SV (stk_source k) inj w done total) fuel (src, x) = (x', r) -> r <> Err EStop.
  Proof.
    intros Hq Hd. pose proof (stk_is_quiet k) as Q.
    refine (proj2 (loop_no_stop _ (fun X => stk_quiet k (fst X)) _ _ _ _ _ fuel _ 0 x' r _ Hd)).
    - intros [sr y] n x1 r1 Hy. cbn [zip_cenv ce_read fst snd].
      destruct (q_read _ _ Q _ (zip_on_save SK C fuel0 SV inj w done total) sr y n Hy (on_save_quiet inj w done total)) as [A B].
      destruct (s_read _ _ sr y n) as [[sr' y'] rr]. intros [= <- <-]. auto.
    - intros [sr y] d x1 m e Hy. cbn [zip_cenv ce_write fst snd]. destruct HK as (_ & _ & _ & _ & HK5 & _).
      pose proof (HK5 (Zip.x_sink _ _ _ _ y) w d) as HW. destruct (k_write SK _ w d) as [s' [[m' adv] e']]. intros [= <- <- <-]. auto.
    - intros [sr y] n Hy. cbn [zip_cenv ce_should fst snd]. destruct (sv_should SV _ n). exact Hy.
    - intros [sr y] Hy. apply (q_want _ _ Q). exact Hy.
    - intros [sr y] Hy. exact Hy.
    - exact Hq.
  Qed.
  Lemma io_copy_quiet w chunks fin : fin <> Some EStop -> forall x x' r, zip_io_copy SK C fuel0 SV w chunks fin x = (x', r) -> r <> Err EStop.
  Proof.
    intros Hfin. destruct HK as (_ & _ & _ & _ & HK5 & _). induction chunks as [|d ds IH]; intros x x' r; cbn [zip_io_copy].
    - intros [= _ <-]. destruct fin; congruence.
    - pose proof (HK5 (Zip.x_sink _ _ _ _ x) w d) as HW. destruct (k_write SK _ w d) as [s' [[m adv] e]]. cbn in HW. destruct e; [intros [= _ <-]; congruence|].
      destruct (_ =? _)%nat; [|intros [= _ <-]; discriminate]. apply IH.
  Qed.
  Lemma no_cb_quiet {CK} : cb_quiet (@no_cb CK).
  Proof. intros c k. discriminate. Qed.
  Lemma zip_copy_quiet fuel k inj prj rs csize done total e x x' r :
    zip_copy SK C fuel0 SV fuel k inj prj rs csize done total e x = (x', r) -> r <> Err EStop.
  Proof.
    pose proof (stk_is_quiet k) as Q. unfold zip_copy.
    destruct (q_resume _ _ Q (stk_new k rs 0 csize) (option_map prj (ec_src (Zip.x_ck _ _ _ _ x))) (stk_new_quiet k rs 0 csize)) as [Q1 Q2].
    destruct (s_resume _ _ _) as [src1 r1]. cbn in Q1, Q2.
    destruct r1 as [o|e1| |]; try (intros [= _ <-]; try discriminate). 2:{ intros [= E]. apply (with_stack_no_stop e1); congruence. }
    assert (HD : forall z, stk_quiet k (fst (fst (if o <? z then discard_by_read (stk_source k) no_cb fuel src1 tt (z - o) else (src1, tt, Ok tt)))) /\
      snd (if o <? z then discard_by_read (stk_source k) no_cb fuel src1 tt (z - o) else (src1, tt, Ok tt)) <> Err EStop).
    { intros z. destruct (o <? z); [|split; [exact Q1|discriminate]]. apply (discard_quiet _ _ Q); [apply no_cb_quiet|exact Q1]. }
    destruct (HD (en_woff e)) as [D1 D2].
    destruct (if _ <? _ then _ else _) as [[src2 u] r2]. cbn in D1, D2.
    destruct r2 as [o2|e2| |]; try (intros [= _ <-]; try discriminate). 2:{ intros [= E]. apply (with_stack_no_stop e2); congruence. }
    destruct HK as (_ & _ & HK3 & _). pose proof (HK3 (Zip.x_sink _ _ _ _ x) e) as HG.
    destruct (k_getw SK _ e) as [s' [w|e3| |]]; try (intros [= _ <-]; try discriminate). 2:{ cbn in HG. intros [= E]. apply (with_stack_no_stop e3); congruence. }
    match goal with |- context[copier_do ?E ?f ?X] => destruct (copier_do E f X) as [[src3 x3] r3] eqn:Ed end.
    intros [= _ <-]. apply ws_no_stop. eapply zcopy_quiet; [|exact Ed]. apply (q_setssc _ _ Q). exact D1.
  Qed.
  Lemma zip_entry_quiet io fuel i zf done total x x' r : zio_no_stop io ->
    zip_entry SK C fuel0 SV io fuel i zf done total x = (x', r) -> r <> Err EStop.
  Proof.
    intros (I1 & I2 & I3). destruct HK as (HK1 & HK2 & HK3 & _). unfold zip_entry. cbv zeta. set (e := match ec_entry _ with Some _ => _ | None => _ end).
    set (x1 := zx_ck _ _ _ _ x _). clearbody x1 e.
    destruct (Z.odd _); [intros [= _ <-]; discriminate|].
    destruct (en_kind e).
    - pose proof (HK1 (Zip.x_sink _ _ _ _ x1) e) as H. destruct (k_mkdir SK _ e) as [s' [er|]]; intros [= _ <-]; try discriminate.
      cbn in H. intros [= E]. apply (with_stack_no_stop er); congruence.
    - destruct (zi_open io) as [[chunks [er|]]|er| |]; try (intros [= _ <-]; discriminate).
      + intros [= _ <-] [= E]. apply (with_stack_no_stop er); [|exact E]. intros ->. exact (I3 chunks eq_refl).
      + pose proof (HK2 (Zip.x_sink _ _ _ _ x1) e (concat chunks)) as H. destruct (k_symlink SK _ e _) as [s' [er|]]; intros [= _ <-]; try discriminate.
        cbn in H. intros [= E]. apply (with_stack_no_stop er); congruence.
      + intros [= _ <-] [= E]. apply (with_stack_no_stop er); congruence.
    - destruct (_ || _).
      + destruct (zi_dataoff io) as [off|er| |]; try (intros [= _ <-]; discriminate).
        * destruct (zf_method zf =? zip_store); apply zip_copy_quiet.
        * intros [= _ <-] [= E]. apply (with_stack_no_stop er); congruence.
      + match goal with |- context[zx_ck SK C fuel0 SV x1 ?c] => set (x2 := zx_ck SK C fuel0 SV x1 c) end. clearbody x2.
        destruct (zi_open io) as [[chunks fin]|er| |]; try (intros [= _ <-]; discriminate).
        * pose proof (HK3 (Zip.x_sink _ _ _ _ x2) (set_woff e 0)) as H. destruct (k_getw SK _ _) as [s' [w|er| |]]; try (intros [= _ <-]; discriminate).
          -- destruct (zip_io_copy _ _ _ _ _ _ _ _) as [x3 r3] eqn:Ec. intros [= _ <-]. apply ws_no_stop. eapply io_copy_quiet; [|exact Ec].
             intros ->. exact (I3 chunks eq_refl).
          -- cbn in H. intros [= _ <-] [= E]. apply (with_stack_no_stop er); congruence.
        * intros [= _ <-] [= E]. apply (with_stack_no_stop er); congruence.
    - intros [= _ <-]. discriminate.
  Qed.
  Lemma zip_loop_quiet io fuel total : (forall i, zio_no_stop (io i)) -> forall files i done x x' r,
    zip_loop SK C fuel0 SV io fuel files i done total x = (x', r) -> r <> Err EStop.
  Proof.
    intros Hio. induction files as [|zf rest IH]; intros i done x x' r; cbn [zip_loop]; [intros [= _ <-]; discriminate|].
    destruct (Zip.x_stoperr _ _ _ _ x); [intros [= _ <-]; discriminate|].
    destruct (zip_entry _ _ _ _ _ _ _ _ _ _ x) as [x1 r1] eqn:Ee. pose proof (zip_entry_quiet _ _ _ _ _ _ _ _ _ (Hio i) Ee) as HQ.
    destruct r1; [apply IH|..]; intros [= _ <-]; try discriminate. apply (ws_no_stop (Err e)). exact HQ.
  Qed.
End ZipQuiet.

Section TarQuiet.
  Context (SK : sink) (F : tfmt) (k : stk) (SV : saver (s_ck (stk_source k)) tstate).
  Notation S := (stk_source k).
  Notation P := (stk_quiet k).
  Hypothesis HK : sink_no_stop SK.
  Hypothesis HV : saver_no_stop SV.
  Hypothesis HF : fmt_no_stop F.
  Let Q := stk_is_quiet k.

  Lemma t_on_save_quiet prog s : cb_quiet (tar_on_save SK S SV prog s).
  Proof.
    intros sc x. unfold tar_on_save. cbv zeta.
    match goal with |- context[sv_save SV ?v ?c] => pose proof (HV v c) as H2; destruct (sv_save SV v c) as [v' [[|]|e]] end; cbn in *; try discriminate.
    intros [= E]. apply (with_stack_no_stop e); congruence.
  Qed.
  Lemma drop_cb_quiet {CK} : cb_quiet (@drop_cb CK).
  Proof. intros c u. discriminate. Qed.

  Lemma read_full_quiet {K} (cb : callback (s_ck S) K) : cb_quiet cb -> forall fuel src u n src' u' r, P src ->
    read_full S cb fuel src u n = (src', u', r) -> P src' /\ r <> Err EStop /\ forall d, r <> Ok (d, Some EStop).
  Proof.
    intros Hcb. induction fuel as [|f IH]; intros src u n src' u' r Hp; (destruct n as [|n]; cbn [read_full]; [intros [= <- <- <-]; splits; auto; discriminate|]).
    - intros [= <- <- <-]. splits; auto; discriminate.
    - destruct (q_read _ _ Q _ cb src u (Datatypes.S n) Hp Hcb) as [H1 H2]. destruct (s_read S cb src u _) as [[src1 u1] [d e| |]]; cbn [fst snd] in H1, H2;
        try (intros [= <- <- <-]; splits; auto; discriminate).
      destruct (_ <=? _)%nat; [intros [= <- <- <-]; splits; auto; discriminate|].
      destruct e as [e|].
      + intros [= <- <- <-]. splits; auto; [discriminate|]. intros d0 [= -> ->]. exact (H2 d0 eq_refl).
      + destruct (read_full S cb f src1 u1 _) as [[src2 u2] [[d2 e2]|e2| |]] eqn:Er; destruct (IH _ _ _ _ _ _ H1 Er) as (A & B & D); intros [= <- <- <-];
          splits; auto; try discriminate. intros d0 [= _ ->]. exact (D d2 eq_refl).
  Qed.
  Lemma parse_quiet : forall fuel src off st src' off' r, P src -> tar_parse F S fuel src off st = (src', off', r) -> P src' /\ r <> Err EStop.
  Proof.
    induction fuel as [|f IH]; intros src off st src' off' r Hp; cbn [tar_parse]; [intros [= <- <- <-]; split; auto; discriminate|].
    pose proof (HF st) as HFs. destruct (tf_step F st) as [n kk|h|e].
    - destruct (read_full S drop_cb (Datatypes.S f) src tt n) as [[src1 u1] r1] eqn:Er.
      destruct (read_full_quiet drop_cb drop_cb_quiet _ _ _ _ _ _ _ Hp Er) as (A & B & D).
      destruct r1 as [[d [e|]]|e| |]; try (intros [= <- <- <-]; split; auto; congruence); [|apply IH; exact A].
      assert (He : e <> EStop) by (intros ->; exact (D d eq_refl)).
      destruct e; try (intros [= <- <- <-]; split; auto; congruence). apply IH. exact A.
    - intros [= <- <- <-]. split; auto. discriminate.
    - intros [= <- <- <-]. split; auto. congruence.
  Qed.
  Lemma next_quiet fuel src s src' s' r : P src -> sr_next F S fuel src s = (src', s', r) -> P src' /\ r <> Err EStop.
  Proof.
    intros Hp. unfold sr_next. destruct (read_full S drop_cb fuel src tt (sr_nb s)) as [[src1 u1] r1] eqn:Er.
    destruct (read_full_quiet drop_cb drop_cb_quiet _ _ _ _ _ _ _ Hp Er) as (A & B & D).
    destruct r1 as [[d [e|]]|e| |]; try (intros [= <- <- <-]; split; auto; congruence).
    - intros [= <- <- <-]. split; [exact A|]. assert (He : e <> EStop) by (intros ->; exact (D d eq_refl)). destruct e; congruence.
    - destruct (tar_parse F S fuel src1 _ _) as [[src2 off] r2] eqn:Ep. destruct (parse_quiet _ _ _ _ _ _ _ A Ep) as [A2 B2].
      destruct r2; intros [= <- <- <-]; split; auto; congruence.
  Qed.
  Lemma tcopy_quiet w fuel src s x x' r : P src -> copier_do (tar_cenv SK F S SV w) fuel (src, s, x) = (x', r) ->
    P (fst (fst x')) /\ r <> Err EStop.
  Proof.
    intros Hq Hd.
    refine (loop_no_stop _ (fun X => P (fst (fst X))) _ _ _ _ _ fuel _ 0 x' r _ Hd).
    - intros [[src1 s1] y] n x1 r1 Hy. cbn [tar_cenv ce_read fst snd]. unfold sr_read.
      destruct (Nat.min n (sr_nb s1)) as [|n']; [intros [= <- <-]; split; [exact Hy|discriminate]|].
      destruct (q_read _ _ Q _ (tar_on_save SK S SV (s_progress S src1) s1) src1 y (Datatypes.S n') Hy (t_on_save_quiet _ _)) as [A B].
      destruct (s_read S _ src1 y _) as [[src2 y'] rr]. cbn [fst snd] in A, B. destruct rr as [d e| |]; intros [= <- <-]; (split; [exact A|]); try discriminate.
      intros d0 [= -> E]. destruct e as [e|]; [|destruct (_ && _); discriminate].
      destruct e; try discriminate; [destruct (_ =? _)%nat; discriminate|exact (B d0 eq_refl)].
    - intros [[src1 s1] y] d x1 m e Hy. cbn [tar_cenv ce_write fst snd]. destruct HK as (_ & _ & _ & _ & HK5 & _).
      pose proof (HK5 (Tar.t_sink _ _ _ y) w d) as HW. destruct (k_write SK _ w d) as [s' [[m' adv] e']]. intros [= <- <- <-]. auto.
    - intros [[src1 s1] y] n Hy. cbn [tar_cenv ce_should fst snd]. destruct (sv_should SV _ n). exact Hy.
    - intros [[src1 s1] y] Hy. apply (q_want _ _ Q). exact Hy.
    - intros [[src1 s1] y] Hy. exact Hy.
    - exact Hq.
  Qed.
  Lemma extract_quiet fuel src s e x src' s' x' r : P src -> tar_extract SK F S SV fuel src s e x = (src', s', x', r) -> P src' /\ r <> Err EStop.
  Proof.
    intros Hp. destruct HK as (HK1 & HK2 & HK3 & _). unfold tar_extract. destruct (en_kind e).
    - pose proof (HK1 (Tar.t_sink _ _ _ x) e) as H. destruct (k_mkdir SK _ e) as [st' [er|]]; intros [= <- <- <- <-]; (split; [exact Hp|]); try discriminate.
      cbn in H. intros [= E]. apply (with_stack_no_stop er); congruence.
    - pose proof (HK2 (Tar.t_sink _ _ _ x) e (en_link e)) as H. destruct (k_symlink SK _ e _) as [st' [er|]]; intros [= <- <- <- <-]; (split; [exact Hp|]); try discriminate.
      cbn in H. intros [= E]. apply (with_stack_no_stop er); congruence.
    - pose proof (HK3 (Tar.t_sink _ _ _ x) e) as H. destruct (k_getw SK _ e) as [st' [w|er| |]]; try (intros [= <- <- <- <-]; (split; [exact Hp|]); try discriminate).
      + match goal with |- context[copier_do ?E ?fu ?X] => destruct (copier_do E fu X) as [X' r3] eqn:Ed end.
        destruct (tcopy_quiet w fuel src s _ X' r3 Hp Ed) as [A B]. destruct X' as [[src2 s2] x2]. cbn [fst snd] in A.
        destruct r3; intros [= <- <- <- <-]; (split; [exact A|]); try discriminate.
        intros [= E]. apply (with_stack_no_stop e0); congruence.
      + cbn in H. intros [= E]. apply (with_stack_no_stop er); congruence.
    - intros [= <- <- <- <-]. split; [exact Hp|discriminate].
  Qed.
  Lemma iter_quiet fuel src s i x src' s' x' r : P src -> tar_iter SK F S SV fuel src s i x = (src', s', x', r) -> P src' /\ r <> Err EStop.
  Proof.
    intros Hp. unfold tar_iter. cbv zeta. cbn [ec_entry]. destruct (ec_entry _) as [e|]; [apply extract_quiet; exact Hp|].
    destruct (sr_next F S fuel src s) as [[src1 s1] r1] eqn:En. destruct (next_quiet _ _ _ _ _ _ Hp En) as [A B].
    destruct r1 as [h|er| |].
    - destruct (tar_entry_of h) as [e|]; [apply extract_quiet; exact A|]. intros [= <- <- <- <-]. split; [exact A|discriminate].
    - destruct er; intros [= <- <- <- <-]; (split; [exact A|]); try discriminate. congruence.
    - intros [= <- <- <- <-]. split; [exact A|discriminate].
    - intros [= <- <- <- <-]. split; [exact A|discriminate].
  Qed.
  Lemma loop_quiet fuel : forall lf src s i x x' r, P src -> tar_loop SK F S SV fuel lf src s i x = (x', r) -> r <> Err EStop.
  Proof.
    induction lf as [|lf IH]; intros src s i x x' r Hp; cbn [tar_loop]; (destruct (Tar.t_stoperr _ _ _ x); [intros [= _ <-]; discriminate|]); [intros [= _ <-]; discriminate|].
    destruct (tar_iter _ _ _ _ _ _ _ _ x) as [[[src1 s1] x1] r1] eqn:Ei. destruct (iter_quiet _ _ _ _ _ _ _ _ _ Hp Ei) as [A B].
    destruct r1; [apply IH; exact A|..]; intros [= _ <-]; try discriminate. apply (ws_no_stop (Err e)). exact B.
  Qed.
End TarQuiet.
