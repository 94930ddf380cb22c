(** Props_gob.v -- C82: checkpoints can be stored with encoding/gob and
    loaded again (sources, zip). *)
From Verif Require Import Base Base_proofs Source Seek Decomp Contract CodecSpec Drive SpoilSpec Stack_proofs Sink Zip SinkSpec ZipSpec
  Zip_proofs Zip2_proofs Zip3_proofs ExCodec ExSink ExZip Props_zip Props_zip2 Props_spoil Gob GobCk GobSpec Gob_proofs GobCk_proofs.
Local Open Scope string_scope. Local Open Scope list_scope. Local Open Scope Z_scope.

Lemma links_knows X ps ps' more more' g : links ps g -> links ps' g -> knows X (linked X ps more) (linked X ps' more') g.
Proof. intros H H' d Hd. split; apply dec_linked; auto. Qed.

(** Every checkpoint of every stack of sources can be stored by a program that
    links the packages of its layers, and any such program that loads it gets the same checkpoint (without
    what does not exist in Go): Resume cannot tell it from the original. *)
Theorem C82_source_survives X g ps ps' more more' (c : sckpt (s_ck (stk_source (gstk_stk g)))) :
  links ps g -> links ps' g -> libs_ok X (linked X ps more) (linked X ps' more') g ->
  exists w c', store_sck (linked X ps more) g c = Some w /\ load_sck (linked X ps' more') g w = Some c' /\
    c' = norm_sck g c /\ ck_off c' = ck_off c /\
    forall st, s_resume (stk_source (gstk_stk g)) st (Some c') = s_resume (stk_source (gstk_stk g)) st (Some c).
Proof.
  intros H H' Hl.
  destruct (t_ptr _ _ _ _ (trips_stack X _ _ g c (links_knows X ps ps' more more' g H H') Hl)) as (w & E1 & E2).
  exists w, (norm_sck g c). split; [unfold store_sck, gob_encode; rewrite E1; reflexivity|]. split; [|split; [reflexivity|split; [reflexivity|]]].
  - unfold load_sck, gob_decode.
    destruct (trips_stack X _ _ g c (links_knows X ps ps' more more' g H H') Hl) as (w' & F1 & F2).
    assert (w' = w) by (cbn [gob_enc] in E1; congruence). subst w'.
    rewrite F2. apply (un_go_stack X _ _ g c Hl).
  - intros st. apply norm_resume.
Qed.

(** Without the package, the decoder does not know the type (and neither does
    the encoder: this is what gob.Register is for). *)
Theorem C82_package_needed reg reg' d C G fuel s (c : sckpt (s_ck (stk_source (gstk_stk (GDec d C G fuel s))))) :
  ck_data c <> None ->
  (assoc (dec_name d) reg = None -> store_sck reg (GDec d C G fuel s) c = None) /\
  (assoc (dec_name d) reg' = None -> forall w, store_sck reg (GDec d C G fuel s) c = Some w -> load_sck reg' (GDec d C G fuel s) w = None).
Proof.
  intros Hd. destruct c as [off [dk|]]; [|destruct Hd; reflexivity]. split.
  - intros Hn. unfold store_sck, gob_encode, go_sck. cbn [ck_off ck_data].
    assert (He : gob_enc reg false (VIface (go_data (GDec d C G fuel s) dk)) = None) by (cbn [go_data gob_enc]; rewrite Hn; reflexivity).
    change (gob_enc reg true (VPtr (Some (VStruct [("Offset", VInt off); ("Data", VIface (go_data (GDec d C G fuel s) dk))]))))
      with (gob_enc reg true (VStruct [("Offset", VInt off); ("Data", VIface (go_data (GDec d C G fuel s) dk))])).
    rewrite enc_struct. cbn [enc_fields]. fold (enc_fields reg). rewrite He. destruct (gob_enc reg false (VInt off)) as [[?|]|]; reflexivity.
  - intros Hn w. unfold store_sck, gob_encode, go_sck. cbn [ck_off ck_data].
    change (gob_enc reg true (VPtr (Some (VStruct [("Offset", VInt off); ("Data", VIface (go_data (GDec d C G fuel s) dk))]))))
      with (gob_enc reg true (VStruct [("Offset", VInt off); ("Data", VIface (go_data (GDec d C G fuel s) dk))])).
    rewrite enc_struct. cbn [enc_fields].
    set (o := gob_enc reg false (VInt off)).
    assert (Ho : o = Some None \/ o = Some (Some (WInt off))) by (subst o; cbn; destruct (off =? 0); auto).
    destruct (gob_enc reg false (VIface (go_data (GDec d C G fuel s) dk))) as [[wi|]|] eqn:Hi.
    + assert (Hw : exists w', wi = WIface (dec_name d) w').
      { cbn [go_data gob_enc] in Hi. destruct (assoc (dec_name d) reg); [|discriminate].
        match type of Hi with match ?x with _ => _ end = _ => destruct x as [[w'|]|]; try discriminate end. injection Hi as <-. eauto. }
      destruct Hw as (w' & ->).
      assert (Hdec : gob_dec reg' (WIface (dec_name d) w') TyIface = None) by (cbn [gob_dec under]; rewrite Hn; reflexivity).
      unfold load_sck, gob_decode. intros Hw.
      assert (Hx : gob_dec reg' w sck_ty = None); [|rewrite Hx; reflexivity].
      destruct Ho as [-> | ->]; injection Hw as <-; unfold sck_ty; rewrite dec_struct; cbn [dec_fields];
        unfold dec_field_of; cbn [String.eqb Ascii.eqb Bool.eqb]; rewrite Hdec; reflexivity.
    + exfalso. cbn [go_data gob_enc] in Hi. destruct (assoc (dec_name d) reg); [|discriminate].
      match type of Hi with match ?x with _ => _ end = _ => destruct x as [[w'|]|]; discriminate end.
    + destruct Ho as [-> | ->]; discriminate.
Qed.

(** ** Zip *)
(** zipextractor reads entries through a flatesource over a seeksource *)
Definition zip_gstk (C : codec) (fuel0 : nat) (G : libck C) : gstk := GDec DFlate C G fuel0 GSeek.

Lemma zrecord_kind f : entry_kind_ok (zrecord_entry f).
Proof. unfold zrecord_entry, entry_kind_ok. cbn. repeat match goal with |- context [if ?b then _ else _] => destruct b end; exact Logic.I. Qed.

Section Zip.
  Context (A : bytes) (C : codec) (fuel0 : nat) (pol : bool) (SK : sink) (L : sink_laws SK) (ms : list zmember).
  Context (HA : zarchive A C fuel0 pol L ms) (st0 : k_st SK) (Hi : kl_inv L st0).
  Context (X : exts) (G : libck C) (ps ps' : list pkg) (more more' : registry).
  Context (Hps : In (PDec DFlate) ps) (Hps' : In (PDec DFlate) ps').
  Notation reg := (linked X ps more).
  Notation reg' := (linked X ps' more').
  Notation g := (zip_gstk C fuel0 G).
  Context (Hlib : libs_ok X reg reg' g).

  Lemma zip_stored st later c earlier :
    zlife A C fuel0 pol ms L st0 true st (later ++ c :: earlier) ->
    exists w c', store_eck reg g zip_dt c = Some w /\ load_eck reg' g zip_dt w = Some c' /\
      same_eck g c c' /\ ec_data c' = None /\ zspoilt C fuel0 ms c c'.
  Proof.
    intros Hl. destruct (all_good A C fuel0 pol ms (za_ok _ _ _ _ _ _ HA)) as (B & HB).
    destruct (life_good A C fuel0 pol ms L st0 true B (za_items A C fuel0 pol ms L HA) HB Hi _ _ Hl) as (_ & _ & Hg & _).
    apply Forall_app in Hg. destruct Hg as [_ Hg]. inversion Hg as [|? ? ((G1 & G2) & _) _]. subst. clear Hg.
    assert (Hk : knows X reg reg' g) by (apply links_knows; intros d [<-|[]]; assumption).
    assert (Ht : trips reg reg' eck_ty (go_eck g zip_dt c)).
    { apply (trips_eck X); [exact Hk|exact Hlib|]. intros []. exists None. split; reflexivity. }
    assert (He : forall e, ec_entry c = Some e -> entry_kind_ok e).
    { intros e He. destruct G2 as [(E1 & _)|(m & w & _ & E1 & _)]; rewrite E1 in He; [discriminate|]. injection He as <-.
      exact (zrecord_kind (zm_file m)). }
    assert (Hd : match ec_data c with None => @None unit = None | Some d => match dt_to zip_dt d with None => @None unit = None | Some (n, VPtr (Some v)) => None = dt_from zip_dt n v | _ => False end end)
      by (destruct (ec_data c); reflexivity).
    destruct (un_go_eck X reg reg' g zip_dt c None Hlib He Hd) as (c' & U1 & U2 & U3).
    destruct Ht as (w & E1 & E2). exists w, c'. split; [unfold store_eck, gob_encode; cbn [gob_enc]; rewrite E1; reflexivity|].
    split; [unfold load_eck, gob_decode; rewrite E2; exact U1|]. split; [exact U2|]. split; [exact U3|].
    destruct U2 as (S1 & S2 & S3 & _). split; [exact S2|]. split; [exact S3|].
    match type of S1 with _ = option_map _ ?t => destruct t as [sc|] eqn:Hs end; [|left; exact S1]. right.
    destruct G2 as [(_ & E3 & _)|(m & w' & E3 & _ & _)]; [exfalso; pose proof (eq_trans (eq_sym Hs) E3) as Hq; discriminate Hq|].
    exists m, sc, (norm_sck g sc). split; [exact E3|]. split; [exact Hs|]. split; [exact S1|].
    unfold zspoilt_src. destruct (_ =? _); [left; reflexivity|]. exact (norm_spoilt g sc).
  Qed.
End Zip.

(** Any checkpoint that the user of a zip extractor can come to hold ([zlife]) can be
    stored; what is loaded is the same checkpoint again; and an extraction
    resumed from that ends, if without error, with exactly the archive's
    contents. *)
Theorem C82_zip_survives A C fuel0 pol SK (L : sink_laws SK) ms st0 st later c earlier X (G : libck C) ps ps' more more' :
  zarchive A C fuel0 pol L ms -> kl_inv L st0 ->
  zlife A C fuel0 pol ms L st0 true st (later ++ c :: earlier) ->
  In (PDec DFlate) ps -> In (PDec DFlate) ps' ->
  libs_ok X (linked X ps more) (linked X ps' more') (zip_gstk C fuel0 G) ->
  exists w c', store_eck (linked X ps more) (zip_gstk C fuel0 G) zip_dt c = Some w /\
    load_eck (linked X ps' more') (zip_gstk C fuel0 G) zip_dt w = Some c' /\ same_eck (zip_gstk C fuel0 G) c c' /\
    forall SV io fuel v out l, ios_ok A pol ms io -> out = zip_resume SK C fuel0 SV (zfiles ms) io fuel (Some c') st v ->
      zo_res _ _ _ _ out = Ok l ->
      extracted L (zitems ms) (kl_view L st0) (zo_sink _ _ _ _ out) /\ l = zlisting (zfiles ms).
Proof.
  intros HA Hi Hl Hp Hp' Hlib.
  destruct (zip_stored A C fuel0 pol SK L ms HA st0 Hi X G ps ps' more more' Hp Hp' Hlib st later c earlier Hl) as (w & c' & H1 & H2 & H3 & _ & H4).
  exists w, c'. split; [exact H1|]. split; [exact H2|]. split; [exact H3|].
  intros SV io fuel v out l Hio Hout Hr.
  exact (C65_zip_spoilt_exact A C fuel0 pol SK L ms st0 st later c c' earlier SV io fuel v out l HA Hi Hl H4 Hio Hout Hr).
Qed.

(** ... and if nothing fails any more, it does end without error. *)
Theorem C82_zip_completes A C fuel0 SK (L : sink_laws SK) ms :
  zarchive A C fuel0 true L ms -> Forall (zsound C fuel0 L) ms -> existsb zencrypted ms = false -> cd_eager C = false ->
  exists B, forall st0 st later c earlier X (G : libck C) ps ps' more more', kl_inv L st0 ->
    zlife A C fuel0 true ms L st0 true st (later ++ c :: earlier) ->
    In (PDec DFlate) ps -> In (PDec DFlate) ps' -> libs_ok X (linked X ps more) (linked X ps' more') (zip_gstk C fuel0 G) ->
    exists w c', store_eck (linked X ps more) (zip_gstk C fuel0 G) zip_dt c = Some w /\
      load_eck (linked X ps' more') (zip_gstk C fuel0 G) zip_dt w = Some c' /\
      forall SV io fuel v out, ios_ok A true ms io -> out = zip_resume SK C fuel0 SV (zfiles ms) io fuel (Some c') st v ->
        kl_clean L st -> (forall i, io_good (io i)) -> saver_goes_on SV -> (B < fuel)%nat ->
        zo_res _ _ _ _ out = Ok (zlisting (zfiles ms)) /\ extracted L (zitems ms) (kl_view L st0) (zo_sink _ _ _ _ out).
Proof.
  intros HA Hs He Hea. destruct (C65_zip_spoilt_completes A C fuel0 SK L ms HA Hs He Hea) as (B & HB). exists B.
  intros st0 st later c earlier X G ps ps' more more' Hi Hl Hp Hp' Hlib.
  destruct (zip_stored A C fuel0 true SK L ms HA st0 Hi X G ps ps' more more' Hp Hp' Hlib st later c earlier Hl) as (w & c' & H1 & H2 & _ & _ & H4).
  exists w, c'. split; [exact H1|]. split; [exact H2|].
  intros SV io fuel v out Hio Hout. apply (HB st0 SV (Some c') io fuel st out Hi).
  eapply ZrResume; [exact (ZlSpoil _ _ _ _ _ _ _ _ _ _ _ _ _ eq_refl Hl H4)|exact Hio|exact Hout].
Qed.

(** Not vacuous: the decompressor of ExCodec.v, with a checkpoint struct as the
    real libraries have it. *)
Definition ex_pack (o : option exst) : bytes :=
  match o with
  | None => []
  | Some X0 => s2b "0" | Some X1 => s2b "1" | Some X2 => s2b "2" | Some (X3 c) => ["3"%char; c] | Some X4 => s2b "4"
  | Some X5 => s2b "5" | Some (X6 c) => ["6"%char; c] | Some X7 => s2b "7" | Some (X8 x y) => ["8"%char; x; y] | Some XF => s2b "F" | Some XC => s2b "C"
  end.
Definition ex_unpack (b : bytes) : option (option exst) :=
  match b with
  | [] => Some None
  | ["0"%char] => Some (Some X0) | ["1"%char] => Some (Some X1) | ["2"%char] => Some (Some X2) | ["3"%char; c] => Some (Some (X3 c))
  | ["4"%char] => Some (Some X4) | ["5"%char] => Some (Some X5) | ["6"%char; c] => Some (Some (X6 c))
  | ["7"%char] => Some (Some X7) | ["8"%char; x; y] => Some (Some (X8 x y))
  | ["F"%char] => Some (Some XF) | ["C"%char] => Some (Some XC)
  | _ => None
  end.
Definition ex_fields : list (string * gty) := [("Roffset", TyInt); ("Woffset", TyInt); ("State", TyStr)].
Definition ex_lib e es : libck (ex_codec e es) :=
  MkLib (ex_codec e es)
    (fun roff woff snap => [("Roffset", VInt roff); ("Woffset", VInt woff); ("State", VStr (ex_pack snap))])
    (fun v => match as_int (get "Roffset" v), as_int (get "Woffset" v), as_str (get "State" v) with
              | Some r, Some w, Some s => match ex_unpack s with Some o => Some (r, w, o) | None => None end
              | _, _, _ => None
              end).
Definition ex_exts : exts := MkExts (fun _ => ex_fields) [("Roffset", TyInt); ("Nb", TyInt); ("Pad", TyInt)].

Lemma ex_lib_ok reg reg' e es d roff woff snap :
  survives reg reg' (TyStruct (ext_dec ex_exts d)) (VStruct (lc_to (ex_lib e es) roff woff snap)) /\
  lc_from (ex_lib e es) (VStruct (lc_to (ex_lib e es) roff woff snap)) = Some (roff, woff, snap).
Proof.
  split.
  - apply survives_trips. apply t_struct.
    + cbn. repeat constructor; cbn; intros Hx; repeat match goal with H : _ \/ _ |- _ => destruct H as [H|H] | H : False |- _ => destruct H end; discriminate Hx.
    + constructor; [|constructor; [|constructor; [|constructor]]]; (split; [reflexivity|]); cbn [fst snd]; [apply f_int|apply f_int|apply f_str].
  - destruct snap as [[]|]; reflexivity.
Qed.

(** Two layers, the inner one with an input at offset 0 that is not nil. *)
Definition ex_g : gstk := GDec DFlate (ex_codec false false) (ex_lib false false) 100 (GDec DBzip2 (ex_codec false false) (ex_lib false false) 100 GSeek).
Definition ex_gc : sckpt (s_ck (stk_source (gstk_stk ex_g))) :=
  MkCk 4 (Some (MkDck (ex_codec false false) (stk_source (gstk_stk (GDec DBzip2 (ex_codec false false) (ex_lib false false) 100 GSeek)))
    4 (Some (MkCk 2 (Some (MkDck (ex_codec false false) seek_source 2 (Some (MkCk 0 None)) 0 2 (Some X1))))) 3 4 (Some (X3 "a"%char)))).
Example C82_source_example :
  let reg := linked ex_exts [PSavior; PDec DBzip2; PDec DFlate] [] in
  links [PSavior; PDec DBzip2; PDec DFlate] ex_g /\ libs_ok ex_exts reg reg ex_g /\
  store_sck reg ex_g ex_gc = Some (WStruct [("Offset", WInt 4); ("Data", WIface "*flatesource.FlateSourceCheckpoint" (WStruct
    [("SourceCheckpoint", WStruct [("Offset", WInt 2); ("Data", WIface "*bzip2source.Bzip2SourceCheckpoint" (WStruct
       [("Offset", WInt 2); ("SourceCheckpoint", WStruct []);
        ("Bzip2Checkpoint", WStruct [("Woffset", WInt 2); ("State", WStr (s2b "1"))])]))]);
     ("FlateCheckpoint", WStruct [("Roffset", WInt 3); ("Woffset", WInt 4); ("State", WStr (s2b "3a"))])]))]) /\
  store_sck (linked ex_exts [PSavior; PDec DFlate; PDec DGzip] []) ex_g ex_gc = None.
Proof.
  cbv zeta. split; [|split; [|split; vm_compute; reflexivity]].
  - intros d [<-|[<-|[]]]; cbn; auto.
  - split; [intros; apply ex_lib_ok|]. split; [intros; apply ex_lib_ok|exact Logic.I].
Qed.

(** The checkpoint of ExZip.v: stored, loaded and resumed from. *)
Definition ez_reg : registry := linked ex_exts [PSavior; PDec DFlate] [].
Definition ez_lib : libck exC := ex_lib false false.
Definition ez_wire : option wire := match ex_ck with Some c => store_eck ez_reg (zip_gstk exC exF ez_lib) zip_dt c | None => None end.
Definition ez_loaded : option (zeck exC exF) := match ez_wire with Some w => load_eck ez_reg (zip_gstk exC exF ez_lib) zip_dt w | None => None end.
Definition ez_after := ExZip.ex_run 0%nat ez_loaded (fst (zo_sink _ _ _ _ ex_first0)).
Example C82_zip_example :
  libs_ok ex_exts ez_reg ez_reg (zip_gstk exC exF ez_lib) /\
  ez_wire = Some (WStruct
    [("SourceCheckpoint", WStruct [("Offset", WInt 4); ("Data", WIface "*flatesource.FlateSourceCheckpoint" (WStruct
       [("SourceCheckpoint", WStruct [("Offset", WInt 3)]); ("FlateCheckpoint", WStruct [("Roffset", WInt 5); ("Woffset", WInt 4); ("State", WStr (s2b "1"))])]))]);
     ("EntryIndex", WInt 2);
     ("Entry", WStruct [("CanonicalPath", WStr (s2b "b")); ("Kind", WInt 2); ("CompressedSize", WInt 8); ("UncompressedSize", WInt 6); ("WriteOffset", WInt 4)]);
     ("Progress", WFloat (Some (9 # 13)%Q))]) /\
  zo_res _ _ _ _ ez_after = Ok (zlisting (zfiles ex_ms)) /\
  ms_view (zo_sink _ _ _ _ ez_after) (s2b "b") = Some (NFile (s2b "aabbcc")).
Proof.
  split; [split; [intros; apply ex_lib_ok|exact Logic.I]|]. split; [|split]; vm_compute; reflexivity.
Qed.
