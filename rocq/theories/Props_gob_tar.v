(** Props_gob_tar.v -- C82: checkpoints can be stored with encoding/gob and
    loaded again (tar). *)
From Verif Require Import Base Base_proofs Source Seek Decomp Contract CodecSpec Drive SpoilSpec Stack_proofs Sink SinkSpec Tar TarSpec
  ZipSpec Tar_proofs Tar2_proofs ExCodec ExSink ExTar Props_tar Props_spoil Gob GobCk GobSpec Gob_proofs GobCk_proofs Props_gob.
Local Open Scope string_scope. Local Open Scope list_scope. Local Open Scope Z_scope.

Lemma tm_entry_kind m e : tm_entry m = Some e -> entry_kind_ok e.
Proof. unfold tm_entry. destruct (th_type (tm_hdr m)); intros H; try discriminate H; injection H as <-; exact Logic.I. Qed.

Lemma tfiles_kinds {SK} (L : sink_laws SK) ms : Forall entry_kind_ok (tfiles L ms).
Proof.
  unfold tfiles. apply Forall_forall. intros e He. apply in_flat_map in He. destruct He as (m & _ & He).
  unfold tm_written in He. destruct (tm_entry m) as [e0|] eqn:Hm; [|destruct He].
  pose proof (tm_entry_kind m e0 Hm) as Hk. unfold entry_kind_ok in *.
  repeat match type of He with context [if ?b then _ else _] => destruct b | context [match ?b with _ => _ end] => destruct b end;
    cbn in He; repeat match goal with H : _ \/ _ |- _ => destruct H as [H|H] | H : False |- _ => destruct H end; subst; exact Hk.
Qed.

Section Tar.
  Context (pol : bool) (data : bytes) (start size : Z) (g : gstk) (D : bytes) (tm : gerr) (F : tfmt) (N : nat) (ms : list tmember) (ok : bool).
  Context (SK : sink) (L : sink_laws SK).
  Notation k := (gstk_stk g).
  Context (HA : tarchive pol data start size k D tm F N ms ok L) (st0 : k_st SK) (Hi : kl_inv L st0).
  Context (X : exts) (T : tarck) (ps ps' : list pkg) (more more' : registry).
  Notation reg := (linked X ps more).
  Notation reg' := (linked X ps' more').
  Context (Hps : In PTar ps) (Hps' : In PTar ps') (Hlk : links ps g) (Hlk' : links ps' g).
  Context (Hlib : libs_ok X reg reg' g) (Htar : tarlib_ok X reg reg' T).

  Lemma tar_stored st later c earlier :
    tlife pol data start size k F L st0 ms st (later ++ c :: earlier) ->
    exists w c', store_eck reg g (tar_dt T) c = Some w /\ load_eck reg' g (tar_dt T) w = Some c' /\
      same_eck g c c' /\ ec_data c' = ec_data c /\ tspoilt k c c'.
  Proof.
    intros Hl. destruct (ta_laws _ _ _ _ _ _ _ _ _ _ _ _ HA) as (LL & Hlate & Hwf & _ & Hqt & HSp).
    pose proof (ta_items _ _ _ _ _ _ _ _ _ _ _ _ HA) as Hv.
    pose proof (ta_layout _ _ _ _ _ _ _ _ _ _ _ _ HA) as Hlay.
    destruct (life_good pol data start size k D tm F N ms ok L st0 LL Hwf Hqt HSp Hv Hlay Hlate Hi _ _ Hl) as (_ & _ & Hg & _).
    apply Forall_app in Hg. destruct Hg as [_ Hg]. inversion Hg as [|? ? ((i & m & e & o & E1 & E2 & E3 & E4 & E5 & E6 & (E7 & _)) & _) _]. subst. clear Hg.
    assert (Hk : knows X reg reg' g) by (apply links_knows; assumption).
    assert (Ht : trips reg reg' eck_ty (go_eck g (tar_dt T) c)).
    { apply (trips_eck X); [exact Hk|exact Hlib|]. apply (ftrips_tardata X); [apply tarstate_linked; exact Hps|apply tarstate_linked; exact Hps'|exact Htar]. }
    assert (He : forall e, ec_entry c = Some e -> entry_kind_ok e).
    { intros e' He. pose proof (eq_trans (eq_sym E6) He) as Hq. injection Hq as <-. exact (tm_entry_kind m e E3). }
    assert (Hts : tstate_kinds_ok (MkTs (Some (tfiles L (firstn i ms))) (Some (sr_in m o)))).
    { intros l [= <-]. apply tfiles_kinds. }
    destruct (un_go_tardata X reg reg' T _ Htar Hts) as (v & V1 & V2).
    assert (Hd : match ec_data c with None => ec_data c = None | Some d => match dt_to (tar_dt T) d with None => ec_data c = None | Some (n, VPtr (Some v)) => ec_data c = dt_from (tar_dt T) n v | _ => False end end).
    { rewrite E7. rewrite V1. symmetry. exact V2. }
    destruct (un_go_eck X reg reg' g (tar_dt T) c (ec_data c) Hlib He Hd) as (c' & U1 & U2 & U3).
    destruct Ht as (w & T1 & T2). exists w, c'. split; [unfold store_eck, gob_encode; cbn [gob_enc]; rewrite T1; reflexivity|].
    split; [unfold load_eck, gob_decode; rewrite T2; exact U1|]. split; [exact U2|]. split; [exact U3|].
    destruct U2 as (S1 & S2 & S3 & _). split; [exact S2|]. split; [exact S3|]. split; [exact U3|].
    match type of S1 with _ = option_map _ ?t => destruct t as [sc|] eqn:Hs end; [|left; exact S1]. right.
    exists sc, (norm_sck g sc). split; [exact Hs|]. split; [exact S1|]. exact (norm_spoilt g sc).
  Qed.
End Tar.

(** The same for the tar extractor over any stack of sources, whose Data
    includes the list of entries extracted so far and arkive/tar's own checkpoint. *)
Theorem C82_tar_survives pol data start size g D tm F N ms ok SK (L : sink_laws SK) st0 st later c earlier X T ps ps' more more' :
  tarchive pol data start size (gstk_stk g) D tm F N ms ok L -> kl_inv L st0 ->
  tlife pol data start size (gstk_stk g) F L st0 ms st (later ++ c :: earlier) ->
  In PTar ps -> In PTar ps' -> links ps g -> links ps' g ->
  libs_ok X (linked X ps more) (linked X ps' more') g -> tarlib_ok X (linked X ps more) (linked X ps' more') T ->
  exists w c', store_eck (linked X ps more) g (tar_dt T) c = Some w /\ load_eck (linked X ps' more') g (tar_dt T) w = Some c' /\
    same_eck g c c' /\ ec_data c' = ec_data c /\
    forall SV rs fuel v out l, rs_ok pol data rs ->
      out = tar_resume SK F (stk_source (gstk_stk g)) SV (tsrc start size (gstk_stk g) rs) fuel (Some c') st v -> to_res _ _ _ out = Ok l ->
      extracted L (titems ms) (kl_view L st0) (to_sink _ _ _ out) /\ l = tfiles L ms /\ ok = true.
Proof.
  intros HA Hi Hl Hp Hp' Hlk Hlk' Hlib Htar.
  destruct (tar_stored pol data start size g D tm F N ms ok SK L HA st0 Hi X T ps ps' more more' Hp Hp' Hlk Hlk' Hlib Htar st later c earlier Hl)
    as (w & c' & H1 & H2 & H3 & H4 & H5).
  exists w, c'. split; [exact H1|]. split; [exact H2|]. split; [exact H3|]. split; [exact H4|].
  intros SV rs fuel v out l Hr Hout Hres.
  exact (C65_tar_spoilt_exact pol data start size (gstk_stk g) D tm F N ms ok SK L st0 st later c c' earlier SV rs fuel v out l HA Hi Hl H5 Hr Hout Hres).
Qed.

Theorem C82_tar_completes pol data start size g D tm F N ms ok SK (L : sink_laws SK) :
  tarchive pol data start size (gstk_stk g) D tm F N ms ok L -> tm = EEof -> ok = true -> tsound L ms ->
  exists B, forall st0 st later c earlier X T ps ps' more more', kl_inv L st0 ->
    tlife pol data start size (gstk_stk g) F L st0 ms st (later ++ c :: earlier) ->
    In PTar ps -> In PTar ps' -> links ps g -> links ps' g ->
    libs_ok X (linked X ps more) (linked X ps' more') g -> tarlib_ok X (linked X ps more) (linked X ps' more') T ->
    exists w c', store_eck (linked X ps more) g (tar_dt T) c = Some w /\ load_eck (linked X ps' more') g (tar_dt T) w = Some c' /\
      forall SV rs fuel v out, rs_ok pol data rs ->
        out = tar_resume SK F (stk_source (gstk_stk g)) SV (tsrc start size (gstk_stk g) rs) fuel (Some c') st v ->
        kl_clean L st -> rs_good rs -> saver_goes_on SV -> (B < fuel)%nat ->
        exists l, to_res _ _ _ out = Ok l /\ extracted L (titems ms) (kl_view L st0) (to_sink _ _ _ out).
Proof.
  intros HA Ht Hok Hs. destruct (C65_tar_spoilt_completes pol data start size (gstk_stk g) D tm F N ms ok SK L HA Ht Hok Hs) as (B & HB). exists B.
  intros st0 st later c earlier X T ps ps' more more' Hi Hl Hp Hp' Hlk Hlk' Hlib Htar.
  destruct (tar_stored pol data start size g D tm F N ms ok SK L HA st0 Hi X T ps ps' more more' Hp Hp' Hlk Hlk' Hlib Htar st later c earlier Hl)
    as (w & c' & H1 & H2 & _ & _ & H5).
  exists w, c'. split; [exact H1|]. split; [exact H2|].
  intros SV rs fuel v out Hr Hout. exact (HB st0 st later c c' earlier SV rs fuel v out Hi Hl H5 Hr Hout).
Qed.

(** Not vacuous: the run of ExTar.v. The list of entries is empty in the
    checkpoint of a run that has not finished a file yet, and must not come back
    as nil: Resume would start over without saying so (tarextractor.go:51). *)
Definition et_tarck : tarck :=
  MkTarck (fun s => [("Roffset", VInt (sr_off s)); ("Nb", VInt (Z.of_nat (sr_nb s))); ("Pad", VInt (Z.of_nat (sr_pad s)))])
    (fun v => match as_int (get "Roffset" v), as_int (get "Nb" v), as_int (get "Pad" v) with
              | Some r, Some n, Some p => Some (Tar.MkSr r (Z.to_nat n) (Z.to_nat p))
              | _, _, _ => None
              end).
Lemma et_tarck_ok reg reg' : tarlib_ok ex_exts reg reg' et_tarck.
Proof.
  intros s. split.
  - apply survives_trips. apply t_struct.
    + cbn. repeat constructor; cbn; intros Hx; repeat match goal with H : _ \/ _ |- _ => destruct H as [H|H] | H : False |- _ => destruct H end; discriminate Hx.
    + constructor; [|constructor; [|constructor; [|constructor]]]; (split; [reflexivity|]); cbn [fst snd]; apply f_int.
  - destruct s as [r n p]. cbn. rewrite !Nat2Z.id. reflexivity.
Qed.
Definition et_g : gstk := GDec DGzip (ex_codec false false) (ex_lib false false) 300 GSeek.
Definition et_reg : registry := linked ex_exts [PSavior; PDec DGzip; PTar] [].
Definition et_wire : option wire := match et_ck with Some c => store_eck et_reg et_g (tar_dt et_tarck) c | None => None end.
Definition et_loaded : option (teck (stk_source et_k)) := match et_wire with Some w => load_eck et_reg et_g (tar_dt et_tarck) w | None => None end.
Definition et_after := et_resume map_sink et_loaded (fst (to_sink _ _ _ et_first)) 0%nat.
Lemma et_after_ok : exists l, to_res _ _ _ et_after = Ok l. Proof. apply is_ok. vm_compute. reflexivity. Qed.
Example C82_tar_example :
  gstk_stk et_g = et_k /\ links [PSavior; PDec DGzip; PTar] et_g /\ libs_ok ex_exts et_reg et_reg et_g /\ tarlib_ok ex_exts et_reg et_reg et_tarck /\
  match et_wire with Some (WStruct l) => assoc "Data" l | _ => None end =
    Some (WIface "*tarextractor.TarExtractorState" (WStruct
      [("Result", WStruct []); ("TarCheckpoint", WStruct [("Roffset", WInt 24); ("Nb", WInt 2); ("Pad", WInt 2)])])) /\
  (exists l, to_res _ _ _ et_after = Ok l) /\
  ms_view (to_sink _ _ _ et_after) (s2b "b") = Some (NFile (s2b "aabbcc")).
Proof.
  split; [reflexivity|]. split; [intros d [<-|[]]; cbn; auto|]. split; [split; [intros; apply ex_lib_ok|exact Logic.I]|].
  split; [apply et_tarck_ok|]. split; [vm_compute; reflexivity|]. split; [exact et_after_ok|]. vm_compute. reflexivity.
Qed.
