(** Order_proofs.v -- in which order the zip extractor hands entries to its sink,
    for every sink, source behaviour, save consumer and checkpoint. *)
From Verif Require Import Base Base_proofs Source Seek Decomp Drive Copier Sink Zip NoteSpec.
From Verif Require Export Keeps_proofs.

Section Order.
  Context (SK : sink) (C : codec) (fuel0 : nat) (SV : saver (zck C fuel0) unit).
  Notation NS := (noted SK).
  Notation zeck := (zeck C fuel0).
  Notation zx := (zx NS C fuel0 SV).
  Notation x_sink := (x_sink NS C fuel0 SV).
  Notation x_ck := (x_ck NS C fuel0 SV).
  Notation evs x := (snd (x_sink x)).

  (** only data events added *)
  Definition dext (l l' : list (kev (k_w SK))) : Prop := exists t, l' = l ++ t /\ Forall only_data t.
  Lemma dext_refl l : dext l l. Proof. exists []. rewrite app_nil_r. auto. Qed.
  Lemma dext_snoc l0 l v : dext l0 l -> only_data v -> dext l0 (l ++ [v]).
  Proof. intros (t & -> & H) Hv. exists (t ++ [v]). rewrite <- app_assoc. split; [reflexivity|]. apply Forall_app. auto. Qed.
  Lemma dext_handed l l' : dext l l' -> handed_entries l' = handed_entries l.
  Proof.
    intros (t & -> & H). unfold handed_entries. rewrite flat_map_app.
    replace (flat_map handed_one t) with (@nil entry); [apply app_nil_r|].
    induction H as [|v t Hv _ IH]; [reflexivity|]. cbn. rewrite <- IH. destruct v; try contradiction; reflexivity.
  Qed.

  Lemma onsave_data {CK} inj w done total l0 (c : sckpt CK) (x : zx) :
    dext l0 (evs x) -> dext l0 (evs (fst (zip_on_save NS C fuel0 SV inj w done total c x))).
  Proof.
    intros H. unfold zip_on_save. cbn [k_sync noted]. destruct (k_sync SK (fst (x_sink x)) w) as [t r].
    destruct r as [e|].
    - cbn. apply dext_snoc; [exact H|exact I].
    - destruct (sv_save SV _ _) as [v' [[|]|e]]; cbn; (apply dext_snoc; [exact H|exact I]).
  Qed.

  Lemma copier_data k inj w done total fuel l0 sx :
    dext l0 (evs (snd sx)) ->
    dext l0 (evs (snd (fst (copier_do (zip_cenv NS C fuel0 SV (stk_source k) inj w done total) fuel sx)))).
  Proof.
    intros H. unfold copier_do. apply (copy_loop_keeps _ (fun sx => dext l0 (evs (snd sx)))); auto.
    - intros [src x] n Hx. cbn [ce_read zip_cenv fst snd].
      pose proof (stk_read_keeps k (zip_on_save NS C fuel0 SV inj w done total) (fun x => dext l0 (evs x))
        (onsave_data inj w done total l0) src x n Hx) as Hk.
      destruct (s_read _ _ _ _ _) as [[src' x'] r]. exact Hk.
    - intros [src x] d Hx. cbn [ce_write zip_cenv fst snd k_write noted].
      destruct (k_write SK (fst (x_sink x)) w d) as [t [[n adv] e]]. cbn. apply dext_snoc; [exact Hx|exact I].
    - intros [src x] n Hx. cbn [ce_should zip_cenv fst snd]. destruct (sv_should SV _ n). exact Hx.
  Qed.

  Lemma iocopy_data w fin l0 : forall chunks x, dext l0 (evs x) ->
    dext l0 (evs (fst (zip_io_copy NS C fuel0 SV w chunks fin x))).
  Proof.
    induction chunks as [|d ds IH]; intros x Hx; cbn [zip_io_copy]; [exact Hx|].
    cbn [k_write noted]. destruct (k_write SK (fst (x_sink x)) w d) as [t [[n adv] e]].
    assert (H1 : dext l0 (snd (x_sink x) ++ [KWrite w d])) by (apply dext_snoc; [exact Hx|exact I]).
    destruct e; [exact H1|]. destruct (n =? length d)%nat; [|exact H1]. apply IH. exact H1.
  Qed.

  (** What one entry does: nothing is handed to the sink, or the entry. *)
  Lemma entry_order io fuel i zf done total x :
    let e := match ec_entry (x_ck x) with Some e => e | None => zip_entry_of zf end in
    let '(x', r) := zip_entry NS C fuel0 SV io fuel i zf done total x in
    (evs x' = evs x /\ (r <> Ok tt \/ exists n, en_kind e = EkOther n)) \/
    (Z.odd (zf_flags zf) = false /\ exists v t, evs x' = evs x ++ v :: t /\ handed_one v = [set_woff e 0] /\ Forall only_data t /\
       match v with KMkdir _ => en_kind e = EkDir | KSymlink _ _ => en_kind e = EkSymlink | _ => en_kind e = EkFile end).
  Proof.
    intros e. unfold zip_entry. fold e.
    destruct (Z.odd (zf_flags zf)); [left; split; [reflexivity|left; discriminate]|].
    assert (Hcopy : forall k inj prj rs cs x1, evs x1 = evs x -> en_kind e = EkFile ->
      let '(x', r) := zip_copy NS C fuel0 SV fuel k inj prj rs cs done total e x1 in
      (evs x' = evs x /\ (r <> Ok tt \/ exists n, en_kind e = EkOther n)) \/
      (false = false /\ exists v t, evs x' = evs x ++ v :: t /\ handed_one v = [set_woff e 0] /\ Forall only_data t /\
         match v with KMkdir _ => en_kind e = EkDir | KSymlink _ _ => en_kind e = EkSymlink | _ => en_kind e = EkFile end)).
    { intros k inj prj rs cs x1 H1 He. unfold zip_copy.
      destruct (s_resume _ _ _) as [src1 r]. destruct r as [off| | |]; try (left; split; [exact H1|left; discriminate]).
      destruct (if off <? en_woff e then _ else _) as [[src2 u] r2].
      destruct r2; try (left; split; [exact H1|left; discriminate]).
      cbn [k_getw noted]. destruct (k_getw SK (fst (x_sink x1)) e) as [t g].
      destruct g as [w'| | |]; try (right; split; [reflexivity|]; exists (KGetWriter e), []; cbn; rewrite H1; splits; auto; fail).
      pose proof (copier_data k inj w' done total fuel (evs x ++ [KGetWriter e])
        (s_setssc (stk_source k) src2, zx_sink NS C fuel0 SV x1 (t, snd (x_sink x1) ++ [KGetWriter e]))) as Hd.
      cbn [snd] in Hd. destruct (copier_do _ fuel _) as [[s3 x2] r3]. cbn [fst snd] in Hd.
      destruct Hd as (t' & Ht & Hf); [cbn; rewrite H1; apply dext_refl|].
      right. split; [reflexivity|]. exists (KGetWriter e), t'. rewrite Ht, <- app_assoc. splits; auto. }
    destruct (en_kind e) eqn:Hk.
    - cbn [k_mkdir noted]. destruct (k_mkdir SK _ e) as [t r]. right. split; [reflexivity|]. exists (KMkdir e), []. cbn. splits; auto.
    - destruct (zi_open io) as [[chunks fin]| | |]; try (left; split; [reflexivity|left; discriminate]).
      destruct fin; [left; split; [reflexivity|left; discriminate]|].
      cbn [k_symlink noted]. destruct (k_symlink SK _ e _) as [t r]. right. split; [reflexivity|]. exists (KSymlink e (concat chunks)), []. cbn. splits; auto.
    - destruct (_ || _).
      + destruct (zi_dataoff io) as [off| | |]; try (left; split; [reflexivity|left; discriminate]).
        destruct (zf_method zf =? zip_store); apply Hcopy; reflexivity.
      + destruct (zi_open io) as [[chunks fin]| | |]; try (left; split; [reflexivity|left; discriminate]).
        cbn [k_getw noted]. destruct (k_getw SK _ _) as [t g].
        destruct g as [w'| | |]; try (right; split; [reflexivity|]; exists (KGetWriter (set_woff e 0)), []; cbn; splits; auto; fail).
        match goal with |- context [zip_io_copy _ _ _ _ w' chunks fin ?x2] => pose proof (iocopy_data w' fin (evs x ++ [KGetWriter (set_woff e 0)]) chunks x2) as Hd;
          destruct (zip_io_copy NS C fuel0 SV w' chunks fin x2) as [x3 r3] end.
        cbn [fst snd] in Hd. destruct Hd as (t' & Ht & Hf); [apply dext_refl|].
        right. split; [reflexivity|]. exists (KGetWriter (set_woff e 0)), t'. rewrite Ht, <- app_assoc. splits; auto.
    - left. split; [reflexivity|]. right. eauto.
  Qed.

  (** The entries still to be done, given the checkpoint's entry. *)
  Definition todo (files : list zfile) (first : option entry) : list entry :=
    match files with
    | [] => []
    | zf :: rest => match first with Some e => set_woff e 0 | None => zip_entry_of zf end :: map zip_entry_of rest
    end.

  Lemma entry_of_woff zf : set_woff (zip_entry_of zf) 0 = zip_entry_of zf.
  Proof. reflexivity. Qed.
  Lemma entry_of_known zf n : en_kind (zip_entry_of zf) <> EkOther n.
  Proof. unfold zip_entry_of. cbn [en_kind]. destruct (Z.testbit (zf_mode zf) mode_dir_bit); [discriminate|]. destruct (Z.testbit (zf_mode zf) mode_symlink_bit); discriminate. Qed.

  Lemma loop_order io fuel total : forall files i done (x : zx),
    (forall e n, ec_entry (x_ck x) = Some e -> en_kind e <> EkOther n) ->
    let '(x', r) := zip_loop NS C fuel0 SV io fuel files i done total x in
    exists n t, evs x' = evs x ++ t /\ handed_entries t = firstn n (todo files (ec_entry (x_ck x))) /\
      (forall j zf, (j < n)%nat -> nth_error files j = Some zf -> Z.odd (zf_flags zf) = false) /\
      (r = Ok tt -> x_stoperr NS C fuel0 SV x' = true \/ n = length files) /\
      Forall (fun v => only_data v \/ handed_one v <> []) t /\ match t with v :: _ => handed_one v <> [] | [] => True end.
  Proof.
    induction files as [|zf rest IH]; intros i done x Hx; cbn [zip_loop].
    - exists 0%nat, []. rewrite app_nil_r. splits; auto. intros; lia.
    - destruct (x_stoperr NS C fuel0 SV x) eqn:Hst.
      { exists 0%nat, []. rewrite app_nil_r. splits; auto. intros; lia. }
      pose proof (entry_order (io i) fuel (Z.of_nat i) zf done total x) as Ho. cbv zeta in Ho.
      destruct (zip_entry NS C fuel0 SV (io i) fuel (Z.of_nat i) zf done total x) as [x' r].
      set (e := match ec_entry (x_ck x) with Some e => e | None => zip_entry_of zf end) in *.
      assert (Hne : forall n, en_kind e <> EkOther n).
      { unfold e. destruct (ec_entry (x_ck x)) eqn:He; [eauto|apply entry_of_known]. }
      assert (Htodo : todo (zf :: rest) (ec_entry (x_ck x)) = set_woff e 0 :: map zip_entry_of rest).
      { unfold e, todo. destruct (ec_entry (x_ck x)); [reflexivity|]. rewrite entry_of_woff. reflexivity. }
      assert (Hhd : forall (v : kev (k_w SK)) t, handed_one v = [set_woff e 0] -> Forall only_data t -> handed_entries (v :: t) = [set_woff e 0]).
      { intros v t Hv Ht. unfold handed_entries. cbn [flat_map]. rewrite Hv.
        replace (flat_map handed_one t) with (@nil entry); [reflexivity|].
        clear -Ht. induction Ht as [|v t Hv _ IH]; [reflexivity|]. cbn. rewrite <- IH. destruct v; try contradiction; reflexivity. }
      destruct Ho as [[Hs Hr]|(Henc & v & t & Hs & Hv & Ht & _)].
      + assert (r <> Ok tt) by (destruct Hr as [Hr|(n & Hr)]; [exact Hr|exfalso; exact (Hne n Hr)]).
        destruct r as [[]| | |]; [congruence| | |];
          (exists 0%nat, []; rewrite app_nil_r; splits; auto; try (intros; lia); discriminate).
      + destruct r as [[]|er| |].
        * specialize (IH (Datatypes.S i) (wrap64 (done + wrap64 (zf_usize zf)))
            (zx_ck NS C fuel0 SV x' (MkEck None (ec_index (x_ck x')) None (ec_prog (x_ck x')) (ec_data (x_ck x'))))).
          destruct (zip_loop NS C fuel0 SV io fuel rest _ _ total _) as [x2 r2].
          destruct IH as (n & t2 & E1 & E2 & E3 & E4 & E5 & E6); [cbn; discriminate|].
          cbn [zx_ck Zip.x_sink Zip.x_ck ec_entry] in E1, E2.
          exists (Datatypes.S n), (v :: t ++ t2). splits.
          -- rewrite E1, Hs, <- app_assoc. reflexivity.
          -- rewrite Htodo. cbn [firstn]. change (v :: t ++ t2) with ((v :: t) ++ t2).
             unfold handed_entries in *. rewrite flat_map_app, E2. rewrite (Hhd v t Hv Ht). cbn [app]. f_equal. f_equal.
             destruct rest; reflexivity.
          -- intros [|j] zf' Hj Hn; [injection Hn as <-; exact Henc|]. eapply E3; [|exact Hn]. lia.
          -- intros ->. destruct (E4 eq_refl) as [?| ->]; auto.
          -- constructor; [right; rewrite Hv; discriminate|]. apply Forall_app. split; [|exact E5].
             eapply Forall_impl; [|exact Ht]. auto.
          -- rewrite Hv. discriminate.
        * exists 1%nat, (v :: t). splits; auto.
          -- rewrite Htodo, (Hhd v t Hv Ht). reflexivity.
          -- intros [|j] zf' Hj Hn; [injection Hn as <-; exact Henc|lia].
          -- discriminate.
          -- constructor; [right; rewrite Hv; discriminate|]. eapply Forall_impl; [|exact Ht]. auto.
          -- rewrite Hv. discriminate.
        * exists 1%nat, (v :: t). splits; auto.
          -- rewrite Htodo, (Hhd v t Hv Ht). reflexivity.
          -- intros [|j] zf' Hj Hn; [injection Hn as <-; exact Henc|lia].
          -- discriminate.
          -- constructor; [right; rewrite Hv; discriminate|]. eapply Forall_impl; [|exact Ht]. auto.
          -- rewrite Hv. discriminate.
        * exists 1%nat, (v :: t). splits; auto.
          -- rewrite Htodo, (Hhd v t Hv Ht). reflexivity.
          -- intros [|j] zf' Hj Hn; [injection Hn as <-; exact Henc|lia].
          -- discriminate.
          -- constructor; [right; rewrite Hv; discriminate|]. eapply Forall_impl; [|exact Ht]. auto.
          -- rewrite Hv. discriminate.
  Qed.

  Lemma prealloc_order : forall files (s : k_st NS), exists t,
    snd (fst (zip_preallocate NS files s)) = snd s ++ t /\ Forall only_prealloc t.
  Proof.
    induction files as [|zf rest IH]; intros s; cbn [zip_preallocate].
    - exists []. rewrite app_nil_r. auto.
    - destruct (en_kind (zip_entry_of zf)); try apply IH.
      cbn [k_prealloc noted]. destruct (k_prealloc SK (fst s) _) as [s' r].
      destruct r as [e|].
      + exists [KPreallocate (zip_entry_of zf)]. cbn. repeat constructor.
      + destruct (IH (s', snd s ++ [KPreallocate (zip_entry_of zf)])) as (t & Ht & Hf). exists (KPreallocate (zip_entry_of zf) :: t).
        rewrite Ht. cbn [snd]. rewrite <- app_assoc. split; [reflexivity|]. constructor; [exact I|exact Hf].
  Qed.

  Lemma resume_order files io fuel c s v out :
    (forall ck e n, c = Some ck -> ec_entry ck = Some e -> en_kind e <> EkOther n) ->
    out = zip_resume NS C fuel0 SV files io fuel c (s, []) v ->
    let idx := Z.to_nat (match c with Some ck => ec_index ck | None => 0 end) in
    let first := match c with Some ck => ec_entry ck | None => None end in
    exists pre t n, snd (zo_sink _ _ _ _ out) = pre ++ t /\ Forall only_prealloc pre /\
      Forall (fun v => only_data v \/ handed_one v <> []) t /\ match t with v :: _ => handed_one v <> [] | [] => True end /\
      handed_entries (snd (zo_sink _ _ _ _ out)) = firstn n (todo (skipn idx files) first) /\
      (forall j zf, (j < n)%nat -> nth_error files (idx + j) = Some zf -> Z.odd (zf_flags zf) = false) /\
      (forall l, zo_res _ _ _ _ out = Ok l -> n = length (skipn idx files) /\ l = zip_entries files).
  Proof.
    intros Hk Hout idx first. unfold zip_resume in Hout. cbv zeta in Hout.
    match type of Hout with context [ec_index ?q <? 0] => set (ck := q) in Hout end.
    assert (Hidx : Z.to_nat (ec_index ck) = idx) by (unfold ck, idx; destruct c; reflexivity).
    assert (Hfirst : ec_entry ck = first) by (unfold ck, first; destruct c; reflexivity).
    match type of Hout with out = match ?p with _ => _ end => destruct p as [s1 perr] eqn:Hpre end.
    assert (Hpo : Forall only_prealloc (snd s1)).
    { destruct c; [injection Hpre as <- _; constructor|].
      destruct (prealloc_order files (s, [])) as (t & Ht & Hf). rewrite Hpre in Ht. cbn in Ht. rewrite Ht. exact Hf. }
    assert (Hph : handed_entries (snd s1) = []).
    { clear -Hpo. unfold handed_entries. induction Hpo as [|v t Hv _ IH]; [reflexivity|]. cbn. rewrite IH. destruct v; try contradiction; reflexivity. }
    destruct perr as [e|].
    { subst out. exists (snd s1), [], 0%nat. cbn [zo_sink zo_res]. rewrite app_nil_r. splits; auto; try (intros; lia); try exact Hph; try discriminate. }
    destruct (ec_index ck <? 0) eqn:Hneg.
    { subst out. exists (snd s1), [], 0%nat. cbn [zo_sink zo_res]. rewrite app_nil_r. splits; auto; try (intros; lia); try exact Hph; try discriminate. }
    rewrite Hidx in Hout.
    set (x0 := MkZx NS C fuel0 SV s1 ck v false false [] []) in Hout.
    pose proof (loop_order io fuel (sum_sizes files) (skipn idx files) idx (sum_sizes (firstn idx files)) x0) as Hl.
    revert Hout Hl. destruct (zip_loop NS C fuel0 SV io fuel (skipn idx files) idx _ _ x0) as [x r]. intros Hout Hl.
    destruct Hl as (n & t & L1 & L2 & L3 & L4 & L5 & L6).
    { cbn. unfold ck. destruct c as [c0|]; [|discriminate]. intros e m He. exact (Hk c0 e m eq_refl He). }
    cbn [x0 Zip.x_sink Zip.x_ck] in L1, L2. subst out.
    exists (snd s1), t, n. cbn [zo_sink zo_res]. rewrite L1. splits; auto.
    - unfold handed_entries in *. rewrite flat_map_app, Hph, L2, Hfirst. reflexivity.
    - intros j zf Hj Hn. apply (L3 j zf Hj). rewrite <- Hn.
      clear. revert files. induction idx as [|i IH]; intros files; [reflexivity|]. destruct files; cbn; [destruct j; reflexivity|apply IH].
    - intros l. destruct r as [[]| | |]; try discriminate.
      destruct (x_stoperr NS C fuel0 SV x) eqn:Hse; [discriminate|]. injection 1 as <-.
      destruct (L4 eq_refl); [congruence|auto].
  Qed.
End Order.
