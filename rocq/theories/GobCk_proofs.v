(** GobCk_proofs.v -- storing and loading checkpoints. *)
From Verif Require Import Base Base_proofs Source Seek Decomp Drive SpoilSpec Sink Tar Gob GobCk GobSpec Gob_proofs.
Local Open Scope string_scope. Local Open Scope list_scope. Local Open Scope Z_scope.

Lemma assoc_app {A} n (l l' : list (string * A)) : assoc n (l ++ l') = match assoc n l with Some a => Some a | None => assoc n l' end.
Proof. induction l as [|[m a] l IH]; cbn; [reflexivity|]. destruct (String.eqb n m); [reflexivity|exact IH]. Qed.

Lemma assoc_linked X p ps more n t : In p ps -> (forall q, assoc n (pkg_init X q) = if match q, p with PSavior, PSavior => true | PDec DFlate, PDec DFlate | PDec DGzip, PDec DGzip | PDec DBzip2, PDec DBzip2 | PDec DBrotli, PDec DBrotli => true | PTar, PTar => true | _, _ => false end then Some t else None) ->
  assoc n (linked X ps more) = Some t.
Proof.
  intros Hi Hq. unfold linked. rewrite assoc_app.
  assert (H : assoc n (flat_map (pkg_init X) ps) = Some t); [|rewrite H; reflexivity].
  induction ps as [|q ps IH]; [destruct Hi|]. cbn [flat_map]. rewrite assoc_app, Hq.
  destruct q as [|[]|], p as [|[]|]; try reflexivity; (destruct Hi as [Hi|Hi]; [discriminate Hi|apply IH; exact Hi]).
Qed.
Lemma dec_linked X d ps more : In (PDec d) ps -> assoc (dec_name d) (linked X ps more) = Some (TyPtr (dec_ty X d)).
Proof. intros H. apply (assoc_linked X (PDec d)); [exact H|]. intros [|d'|]; [destruct d|destruct d, d'|destruct d]; reflexivity. Qed.
Lemma tarstate_linked X ps more : In PTar ps -> assoc tarstate_name (linked X ps more) = Some (TyPtr (tarstate_ty X)).
Proof. intros H. apply (assoc_linked X PTar); [exact H|]. intros [|d'|]; [|destruct d'|]; reflexivity. Qed.

Section Ck.
  Context (X : exts) (reg reg' : registry).
  Notation trips := (trips reg reg').
  Notation ftrips := (ftrips reg reg').

  Definition knows (g : gstk) : Prop := forall d, In d (gstk_pkgs g) ->
    assoc (dec_name d) reg = Some (TyPtr (dec_ty X d)) /\ assoc (dec_name d) reg' = Some (TyPtr (dec_ty X d)).

  Lemma nodup_dec d : NoDup (map fst ((if dec_has_offset d then [("Offset", TyInt)] else []) ++
      [("SourceCheckpoint", TyPtr sck_ty); (dec_field d, TyPtr (TyStruct (ext_dec X d)))])).
  Proof.
    destruct d; cbn; repeat constructor; cbn; intros H;
      repeat match goal with H : _ \/ _ |- _ => destruct H as [H|H] | H : False |- _ => destruct H end; try discriminate H.
  Qed.

  Lemma trips_sck {CK} (data : CK -> option (string * gval)) (c : sckpt CK) :
    (forall x, ck_data c = Some x -> ftrips TyIface (VIface (data x))) -> trips sck_ty (go_sck data c).
  Proof.
    intros H. apply t_struct.
    - cbn. repeat constructor; cbn; intros Hx; repeat match goal with H : _ \/ _ |- _ => destruct H as [H|H] | H : False |- _ => destruct H end; discriminate Hx.
    - constructor; [|constructor; [|constructor]]; (split; [reflexivity|]); cbn [fst snd].
      + apply f_int.
      + destruct (ck_data c) as [x|]; [apply H; reflexivity|]. exists None. split; reflexivity.
  Qed.

  Lemma go_sck_struct {CK} (data : CK -> option (string * gval)) (c : sckpt CK) : exists fs, go_sck data c = VStruct fs.
  Proof. eexists. reflexivity. Qed.

  Lemma ftrips_data g : knows g -> libs_ok X reg reg' g -> forall x, ftrips TyIface (VIface (go_data g x)).
  Proof.
    induction g as [|d C G fuel s IH]; intros Hk Hl x.
    - exists None. split; reflexivity.
    - destruct Hl as [Hl Hls]. assert (Hks : knows s) by (intros d' Hd'; apply Hk; right; exact Hd').
      apply f_iface. intros n v [= <- <-]. destruct (Hk d (or_introl eq_refl)) as [K1 K2].
      split; [eauto|]. exists (TyPtr (dec_ty X d)). split; [exact K2|]. apply t_ptr. apply t_struct; [apply nodup_dec|].
      apply Forall2_app.
      + destruct (dec_has_offset d); [|constructor]. constructor; [|constructor]. split; [reflexivity|]. apply f_int.
      + constructor; [|constructor; [|constructor]]; (split; [reflexivity|]); cbn [fst snd].
        * apply f_optptr; [intros a; apply go_sck_struct|]. intros a _. apply trips_sck. intros y _. apply (IH Hks Hls).
        * apply f_ptr. apply survives_trips. apply Hl.
  Qed.

  Lemma trips_stack g c : knows g -> libs_ok X reg reg' g -> trips sck_ty (go_sck (go_data g) c).
  Proof. intros Hk Hl. apply trips_sck. intros x _. apply ftrips_data; assumption. Qed.

  Lemma trips_entry e : trips entry_ty (go_entry e).
  Proof.
    apply t_struct.
    - cbn. repeat constructor; cbn; intros Hx; repeat match goal with H : _ \/ _ |- _ => destruct H as [H|H] | H : False |- _ => destruct H end; discriminate Hx.
    - repeat (constructor; [split; [reflexivity|]; cbn [fst snd]; first [apply f_int|apply f_str]|]). constructor.
  Qed.
  Lemma trips_result l : trips result_ty (go_result l).
  Proof.
    apply t_struct.
    - cbn. repeat constructor. intros [].
    - constructor; [|constructor]. split; [reflexivity|]. cbn [fst snd]. apply f_slice. apply Forall_map. apply Forall_forall.
      intros e _. apply t_ptr. apply trips_entry.
  Qed.
  Lemma ftrips_tardata T : assoc tarstate_name reg = Some (TyPtr (tarstate_ty X)) -> assoc tarstate_name reg' = Some (TyPtr (tarstate_ty X)) ->
    tarlib_ok X reg reg' T -> forall t, ftrips TyIface (VIface (dt_to (tar_dt T) t)).
  Proof.
    intros K1 K2 HT t. apply f_iface. intros n v [= <- <-]. split; [eauto|]. exists (TyPtr (tarstate_ty X)). split; [exact K2|].
    apply t_ptr. apply t_struct.
    - cbn. repeat constructor; cbn; intros Hx; repeat match goal with H : _ \/ _ |- _ => destruct H as [H|H] | H : False |- _ => destruct H end; discriminate Hx.
    - constructor; [|constructor; [|constructor]]; (split; [reflexivity|]); cbn [fst snd].
      + apply f_optptr; [intros a; eexists; reflexivity|]. intros a _. apply trips_result.
      + apply f_optptr; [intros a; eexists; reflexivity|]. intros a _. apply survives_trips. apply HT.
  Qed.

  Lemma trips_eck {DT} g (D : dtgo DT) c : knows g -> libs_ok X reg reg' g ->
    (forall d, ftrips TyIface (VIface (dt_to D d))) -> trips eck_ty (go_eck g D c).
  Proof.
    intros Hk Hl HD. apply t_struct.
    - cbn. repeat constructor; cbn; intros Hx; repeat match goal with H : _ \/ _ |- _ => destruct H as [H|H] | H : False |- _ => destruct H end; discriminate Hx.
    - constructor; [|constructor; [|constructor; [|constructor; [|constructor; [|constructor]]]]]; (split; [reflexivity|]); cbn [fst snd].
      + apply f_optptr; [intros a; apply go_sck_struct|]. intros a _. apply trips_stack; assumption.
      + apply f_int.
      + apply f_optptr; [intros a; eexists; reflexivity|]. intros a _. apply trips_entry.
      + apply f_float.
      + destruct (ec_data c) as [d|]; [apply HD|]. exists None. split; reflexivity.
  Qed.

  (** ** What is read back *)
  Lemma un_go_sck {CK} (data : CK -> option (string * gval)) (un : string -> gval -> option CK) (nf : CK -> option CK) c :
    (forall x, match data x with None => nf x = None | Some (n, VPtr (Some v)) => un n v = nf x | _ => False end) ->
    un_sck un (go_sck data c) = Some (norm_with nf c).
  Proof.
    intros H. destruct c as [off [x|]]; cbn; [|reflexivity]. specialize (H x).
    destruct (data x) as [[n v]|]; [|unfold norm_with; cbn; rewrite H; reflexivity].
    destruct v as [| | | |[v|]| |]; try contradiction. unfold norm_with. cbn. rewrite H. reflexivity.
  Qed.

  Lemma un_go_data g : libs_ok X reg reg' g -> forall x,
    match go_data g x with None => norm_data g x = None | Some (n, VPtr (Some v)) => un_data g n v = norm_data g x | _ => False end.
  Proof.
    induction g as [|d C G fuel s IH]; intros Hl x; [reflexivity|]. destruct Hl as [Hl Hls].
    change (dck C (stk_source (gstk_stk s))) in x.
    destruct x as [off src roff woff snap].
    cbn [go_data dk_off dk_src dk_roff dk_woff dk_snap]. cbn [un_data]. rewrite String.eqb_refl.
    assert (Hoff : (if dec_has_offset d then as_int (get "Offset" (VStruct ((if dec_has_offset d then [("Offset", VInt off)] else []) ++
        [("SourceCheckpoint", VPtr (option_map (go_sck (go_data s)) src)); (dec_field d, VPtr (Some (VStruct (lc_to G roff woff snap))))]))) else Some 0)
      = Some (if dec_has_offset d then off else 0)) by (destruct d; reflexivity).
    rewrite Hoff.
    assert (Hsrc : get "SourceCheckpoint" (VStruct ((if dec_has_offset d then [("Offset", VInt off)] else []) ++
        [("SourceCheckpoint", VPtr (option_map (go_sck (go_data s)) src)); (dec_field d, VPtr (Some (VStruct (lc_to G roff woff snap))))]))
      = Some (VPtr (option_map (go_sck (go_data s)) src))) by (destruct d; reflexivity).
    rewrite Hsrc.
    assert (Hlib : get (dec_field d) (VStruct ((if dec_has_offset d then [("Offset", VInt off)] else []) ++
        [("SourceCheckpoint", VPtr (option_map (go_sck (go_data s)) src)); (dec_field d, VPtr (Some (VStruct (lc_to G roff woff snap))))]))
      = Some (VPtr (Some (VStruct (lc_to G roff woff snap))))) by (destruct d; reflexivity).
    rewrite Hlib. rewrite (proj2 (Hl roff woff snap)). cbn [norm_data dk_off dk_src dk_roff dk_woff dk_snap].
    destruct src as [sc|]; cbn [option_map]; [|reflexivity].
    rewrite (un_go_sck (go_data s) (un_data s) (norm_data s) sc (IH Hls)). reflexivity.
  Qed.

  Lemma un_go_stack g c : libs_ok X reg reg' g -> un_sck (un_data g) (go_sck (go_data g) c) = Some (norm_sck g c).
  Proof. intros Hl. apply un_go_sck. apply un_go_data. exact Hl. Qed.

  Lemma un_go_kind k : kind_ok k -> un_kind (go_kind k) = k.
  Proof.
    destruct k as [| | |n]; try reflexivity. cbn. intros (H0 & H1 & H2). unfold un_kind.
    destruct (Z.eqb_spec n 0); [contradiction|]. destruct (Z.eqb_spec n 1); [contradiction|]. destruct (Z.eqb_spec n 2); [contradiction|]. reflexivity.
  Qed.
  Lemma un_go_entry e : entry_kind_ok e -> un_entry (go_entry e) = Some e.
  Proof. intros H. destruct e as [p k m cs us w l]. cbn. rewrite (un_go_kind k H). reflexivity. Qed.
  Lemma un_go_result l : Forall entry_kind_ok l -> un_result (go_result l) = Some l.
  Proof.
    intros H. cbn. induction H as [|e l He Hl IH]; [reflexivity|]. cbn [map].
    rewrite (un_go_entry e He). cbn [all_some]. rewrite IH. reflexivity.
  Qed.

  Definition tstate_kinds_ok (t : tstate) : Prop := forall l, ts_result t = Some l -> Forall entry_kind_ok l.
  Lemma un_go_tardata T t : tarlib_ok X reg reg' T -> tstate_kinds_ok t ->
    exists v, dt_to (tar_dt T) t = Some (tarstate_name, VPtr (Some v)) /\ dt_from (tar_dt T) tarstate_name v = Some t.
  Proof.
    intros HT Hk. eexists. split; [reflexivity|]. unfold tar_dt. cbn [dt_from]. rewrite String.eqb_refl. destruct t as [r s]. cbn [ts_result ts_tar get assoc].
    change (String.eqb "Result" "Result") with true. change (String.eqb "TarCheckpoint" "Result") with false.
    change (String.eqb "TarCheckpoint" "TarCheckpoint") with true. cbv iota. cbn [un_ptr].
    destruct r as [l|]; cbn [option_map un_ptr].
    - rewrite (un_go_result l (Hk l eq_refl)). cbn [option_map]. destruct s as [s|]; cbn [option_map un_ptr]; [|reflexivity].
      rewrite (proj2 (HT s)). reflexivity.
    - destruct s as [s|]; cbn [option_map un_ptr]; [|reflexivity]. rewrite (proj2 (HT s)). reflexivity.
  Qed.

  Lemma un_go_eck {DT} g (D : dtgo DT) (c : eckpt (gs_ck g) DT) (d' : option DT) : libs_ok X reg reg' g ->
    (forall e, ec_entry c = Some e -> entry_kind_ok e) ->
    match ec_data c with
    | None => d' = None
    | Some d => match dt_to D d with None => d' = None | Some (n, VPtr (Some v)) => d' = dt_from D n v | _ => False end
    end ->
    exists c', un_eck g D (go_eck g D c) = Some c' /\ same_eck g c c' /\ ec_data c' = d'.
  Proof.
    intros Hl He Hd. destruct c as [src i e q da]. cbn [ec_entry ec_data] in *.
    exists (MkEck (option_map (norm_sck g) src) i e (option_map Qred q) d').
    split; [|split; [|reflexivity]].
    - unfold un_eck, go_eck. cbn [ec_src ec_index ec_entry ec_prog ec_data get].
      cbn [assoc]. cbv [String.eqb Ascii.eqb Bool.eqb].
      assert (H1 : un_ptr (un_sck (un_data g)) (Some (VPtr (option_map (go_sck (go_data g)) src))) = Some (option_map (norm_sck g) src)).
      { destruct src as [sc|]; [|reflexivity]. cbn [option_map un_ptr]. rewrite un_go_stack by exact Hl. reflexivity. }
      assert (H2 : un_ptr un_entry (Some (VPtr (option_map go_entry e))) = Some e).
      { destruct e as [e|]; [|reflexivity]. cbn [option_map un_ptr]. rewrite (un_go_entry e (He e eq_refl)). reflexivity. }
      rewrite H1, H2. cbn [as_int].
      destruct da as [d|]; [|subst d'; reflexivity].
      destruct (dt_to D d) as [[n v]|]; [|subst d'; reflexivity].
      destruct v as [| | | |[v|]| |]; try contradiction. subst d'. reflexivity.
    - unfold same_eck. cbn [ec_src ec_index ec_entry ec_prog]. split; [reflexivity|]. split; [reflexivity|]. split; [reflexivity|].
      destruct q as [q|]; cbn [option_map]; [apply Qred_correct|exact Logic.I].
  Qed.

End Ck.

(** ** Sources do not see the difference *)
Lemma norm_resume g : forall st c, s_resume (stk_source (gstk_stk g)) st (Some (norm_sck g c)) = s_resume (stk_source (gstk_stk g)) st (Some c).
Proof.
  induction g as [|d C G fuel s IH]; intros st c.
  - destruct c as [off da]. reflexivity.
  - destruct c as [off [dk|]]; [|reflexivity]. destruct dk as [doff src roff woff snap].
    change (dstate C (stk_source (gstk_stk s))) in st.
    cbn [gstk_stk stk_source]. unfold norm_sck, norm_with. cbn [ck_off ck_data norm_data dk_off dk_src dk_roff dk_woff dk_snap].
    change (s_resume (dcomp_source C (dpkg_cfg d) (stk_source (gstk_stk s)) fuel)) with (dcomp_resume C (dpkg_cfg d) (stk_source (gstk_stk s)) fuel).
    unfold dcomp_resume. cbn [dk_off dk_src dk_roff dk_woff dk_snap].
    assert (Hs : s_resume (stk_source (gstk_stk s)) (ds_in C (stk_source (gstk_stk s)) st) (option_map (norm_with (norm_data s)) src) =
                 s_resume (stk_source (gstk_stk s)) (ds_in C (stk_source (gstk_stk s)) st) src).
    { destruct src as [sc|]; [|reflexivity]. exact (IH _ sc). }
    rewrite Hs.
    assert (Ho : (if cf_own_off (dpkg_cfg d) then (if dec_has_offset d then doff else 0) else woff) = (if cf_own_off (dpkg_cfg d) then doff else woff))
      by (destruct d; reflexivity).
    rewrite Ho. reflexivity.
Qed.

(** a normalised checkpoint is not spoilt *)
Lemma norm_spoilt g c : spoilt (gstk_stk g) c (norm_sck g c).
Proof.
  revert c. induction g as [|d C G fuel s IH]; intros c.
  - left. reflexivity.
  - destruct c as [off [dk|]]; [|left; reflexivity]. right. exists dk. eexists. split; [reflexivity|]. split; [reflexivity|].
    destruct dk as [doff src roff woff snap]. cbn. split; [destruct d; auto|]. split; [reflexivity|]. split; [reflexivity|]. split; [left; reflexivity|].
    destruct src as [sc|]; [|left; reflexivity]. right. exists sc. eexists. split; [reflexivity|]. split; [reflexivity|].
    right. apply IH.
Qed.
