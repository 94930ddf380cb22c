(** Props_calls.v -- property C63: extractors use their sink as it demands,
    whatever the archive, the sink, the save consumer and the checkpoint. *)
From Verif Require Import Base Base_proofs Source Seek Decomp Drive Copier Sink Zip Tar Features CallsSpec Order_proofs.

Section Zip.
  Context (SK : sink) (C : codec) (fuel0 : nat) (SV : saver (zck C fuel0) unit) (pre : bool) (base : list (aev (k_w SK))).
  Notation NS := (audited SK).
  Notation zx := (zx NS C fuel0 SV).
  Notation evs x := (snd (x_sink NS C fuel0 SV x)).

  (** what happened after [base] *)
  Definition prp (l : list (aev (k_w SK))) (cur : option (k_w SK)) : Prop := exists t, l = base ++ t /\ proper pre t cur.
  Lemma prp_more l cur v cur' : (forall t, proper pre t cur -> proper pre (t ++ [v]) cur') -> prp l cur -> prp (l ++ [v]) cur'.
  Proof. intros H (t & -> & Ht). exists (t ++ [v]). split; [rewrite app_assoc; reflexivity|auto]. Qed.
  Lemma prp_get l cur e got : prp l cur -> prp (l ++ [AGetWriter e got]) got.
  Proof. apply prp_more. intros t H. eapply PrGetWriter. exact H. Qed.

  Lemma z_onsave {CK} inj w done total (c : sckpt CK) (x : zx) :
    prp (evs x) (Some w) -> prp (evs (fst (zip_on_save NS C fuel0 SV inj w done total c x))) (Some w).
  Proof.
    intros H. unfold zip_on_save. cbn [k_sync audited]. destruct (k_sync SK _ w) as [t [e|]]; [eapply prp_more; [|exact H]; constructor; auto|].
    destruct (sv_save SV _ _) as [v' [[|]|e]]; (eapply prp_more; [|exact H]; constructor; auto).
  Qed.
  Lemma z_copier k inj w done total fuel sx : prp (evs (snd sx)) (Some w) ->
    prp (evs (snd (fst (copier_do (zip_cenv NS C fuel0 SV (stk_source k) inj w done total) fuel sx)))) (Some w).
  Proof.
    intros H. unfold copier_do. apply (copy_loop_keeps _ (fun sx => prp (evs (snd sx)) (Some w))); auto.
    - intros [src x] n Hx. cbn [ce_read zip_cenv fst snd].
      pose proof (stk_read_keeps k (zip_on_save NS C fuel0 SV inj w done total) (fun x => prp (evs x) (Some w))
        (z_onsave inj w done total) src x n Hx) as Hk.
      destruct (s_read _ _ _ _ _) as [[src' x'] r]. exact Hk.
    - intros [src x] d Hx. cbn [ce_write zip_cenv fst snd k_write audited].
      destruct (k_write SK _ w d) as [t [[n adv] e]]. eapply prp_more; [|exact Hx]. constructor. auto.
    - intros [src x] n Hx. cbn [ce_should zip_cenv fst snd]. destruct (sv_should SV _ n). exact Hx.
  Qed.
  Lemma z_iocopy w fin : forall chunks x, prp (evs x) (Some w) ->
    prp (evs (fst (zip_io_copy NS C fuel0 SV w chunks fin x))) (Some w).
  Proof.
    induction chunks as [|d ds IH]; intros x Hx; cbn [zip_io_copy]; [exact Hx|].
    cbn [k_write audited]. destruct (k_write SK _ w d) as [t [[n adv] e]].
    assert (H1 : prp (evs x ++ [AWrite w d]) (Some w)) by (eapply prp_more; [|exact Hx]; constructor; auto).
    destruct e; [exact H1|]. destruct (n =? length d)%nat; [|exact H1]. apply IH. exact H1.
  Qed.
  Definition zproper (x : zx) : Prop := exists cur, prp (evs x) cur.
  Lemma z_copy fuel k inj prj rs cs done total e x : zproper x -> zproper (fst (zip_copy NS C fuel0 SV fuel k inj prj rs cs done total e x)).
  Proof.
    intros Hx. unfold zip_copy. destruct (s_resume _ _ _) as [src1 [o| | |]]; try exact Hx.
    destruct (if _ <? _ then _ else _) as [[src2 u] [u2| | |]]; try exact Hx.
    cbn [k_getw audited]. destruct Hx as [cur Hx]. destruct (k_getw SK _ e) as [t [w'|er| |]].
    2-4: exists None; eapply prp_get; exact Hx.
    match goal with |- context [copier_do ?E fuel ?sx] => pose proof (z_copier k inj w' done total fuel sx) as Hd; destruct (copier_do E fuel sx) as [[s3 x2] r3] end.
    cbn [fst snd] in *. exists (Some w'). apply Hd. eapply prp_get. exact Hx.
  Qed.
  Lemma z_entry io fuel i zf done total x : zproper x -> zproper (fst (zip_entry NS C fuel0 SV io fuel i zf done total x)).
  Proof.
    intros Hx. unfold zip_entry. cbv zeta. set (e := match ec_entry _ with Some e => e | None => zip_entry_of zf end).
    match goal with |- context[zx_ck NS C fuel0 SV x ?c] => set (x1 := zx_ck NS C fuel0 SV x c) end.
    assert (H1 : zproper x1) by exact Hx. clearbody x1 e. clear Hx.
    destruct (Z.odd _); [exact H1|]. destruct (en_kind e).
    - destruct H1 as [cur H1]. cbn [k_mkdir audited]. destruct (k_mkdir SK _ e) as [t [er|]]; exists cur; (eapply prp_more; [|exact H1]; constructor; auto).
    - destruct (zi_open io) as [[chunks [er|]]| | |]; try exact H1.
      destruct H1 as [cur H1]. cbn [k_symlink audited]. destruct (k_symlink SK _ e _) as [t [er|]]; exists cur; (eapply prp_more; [|exact H1]; constructor; auto).
    - destruct (_ || _).
      + destruct (zi_dataoff io) as [off| | |]; try exact H1. destruct (zf_method zf =? zip_store); apply z_copy; exact H1.
      + destruct (zi_open io) as [[chunks fin]| | |]; try exact H1. cbn [k_getw audited]. destruct H1 as [cur H1].
        destruct (k_getw SK _ _) as [t [w'|er| |]].
        2-4: exists None; eapply prp_get; exact H1.
        match goal with |- context [zip_io_copy _ _ _ _ w' chunks fin ?x2] => pose proof (z_iocopy w' fin chunks x2) as Hd;
          destruct (zip_io_copy NS C fuel0 SV w' chunks fin x2) as [x3 r3] end.
        cbn [fst snd] in *. exists (Some w'). destruct r3; apply Hd; eapply prp_get; exact H1.
    - exact H1.
  Qed.
  Lemma z_loop io fuel total : forall files i done x, zproper x -> zproper (fst (zip_loop NS C fuel0 SV io fuel files i done total x)).
  Proof.
    induction files as [|zf rest IH]; intros i done x Hx; cbn [zip_loop]; [exact Hx|].
    destruct (x_stoperr _ _ _ _ x); [exact Hx|].
    pose proof (z_entry (io i) fuel (Z.of_nat i) zf done total x Hx) as H1.
    destruct (zip_entry NS C fuel0 SV _ _ _ _ _ _ x) as [x1 [u|er| |]]; cbn [fst] in *; try exact H1. apply IH. exact H1.
  Qed.
End Zip.

(** C63. Zip: preallocates only if there is no checkpoint. *)
Theorem C63_zip_sink_use SK C fuel0 (SV : saver (zck C fuel0) unit) files io fuel c s v out :
  out = zip_resume (audited SK) C fuel0 SV files io fuel c (s, []) v ->
  exists cur, proper (match c with None => true | Some _ => false end) (snd (zo_sink _ _ _ _ out)) cur.
Proof.
  intros Hout. set (pre := match c with None => true | Some _ => false end).
  unfold zip_resume in Hout. cbv zeta in Hout.
  match type of Hout with context [ec_index ?q <? 0] => set (ck := q) in Hout end.
  match type of Hout with out = match ?p with _ => _ end => destruct p as [s1 perr] eqn:Hp end.
  assert (H1 : proper pre (snd s1) None).
  { destruct c as [c|]; [injection Hp as <- _; apply PrStart; constructor|].
    assert (G : forall files s0, Forall (fun v => pre = true /\ exists e, v = APreallocate e) (snd s0) ->
      Forall (fun v => pre = true /\ exists e, v = APreallocate e) (snd (fst (zip_preallocate (audited SK) files s0)))).
    { induction files0 as [|f fs IH]; intros s0 H0; cbn [zip_preallocate]; [exact H0|].
      destruct (en_kind (zip_entry_of f)); try (apply IH; exact H0).
      cbn [k_prealloc audited]. destruct (k_prealloc SK (fst s0) _) as [t r].
      assert (H2 : Forall (fun v : aev (k_w SK) => pre = true /\ exists e, v = APreallocate e) (snd s0 ++ [APreallocate (zip_entry_of f)])).
      { apply Forall_app. split; [exact H0|]. constructor; [|constructor]. split; [reflexivity|eauto]. }
      destruct r as [e|]; [exact H2|]. apply IH. exact H2. }
    specialize (G files (s, []) (Forall_nil _)). rewrite Hp in G. apply PrStart. exact G. }
  destruct perr as [e|]; [subst out; exists None; exact H1|].
  destruct (ec_index ck <? 0); [subst out; exists None; exact H1|].
  match type of Hout with context [zip_loop ?a ?b ?c0 ?d ?e ?f ?g ?h ?i ?j ?x] =>
    pose proof (z_loop SK C fuel0 SV pre [] e f j g h i x) as Hl; destruct (zip_loop a b c0 d e f g h i j x) as [x' r] end.
  destruct Hl as (cur & t & Ht & Hpr); [exists None, (snd s1); split; [reflexivity|exact H1]|].
  subst out. exists cur. cbn [zo_sink fst] in *. rewrite Ht. exact Hpr.
Qed.

Section Tar.
  Context (SK : sink) (F : tfmt) (k : stk) (SV : saver (s_ck (stk_source k)) tstate).
  Notation S := (stk_source k).
  Notation NS := (audited SK).
  Notation tx := (tx NS S SV).
  Notation evs x := (snd (t_sink NS S SV x)).

  Lemma t_onsave cur prog s (c : sckpt (s_ck S)) (x : tx) :
    proper false (evs x) cur -> proper false (evs (fst (tar_on_save NS S SV prog s c x))) cur.
  Proof. intros H. unfold tar_on_save. cbv zeta. destruct (sv_save SV _ _) as [v' [[|]|e]]; exact H. Qed.
  Lemma t_copier w fuel X : proper false (evs (snd X)) (Some w) ->
    proper false (evs (snd (fst (copier_do (tar_cenv NS F S SV w) fuel X)))) (Some w).
  Proof.
    intros H. unfold copier_do. apply (copy_loop_keeps _ (fun X => proper false (evs (snd X)) (Some w))).
    - intros [[src s] x] n Hx. cbn [ce_read tar_cenv fst snd]. unfold sr_read.
      destruct (Nat.min n (sr_nb s)) as [|n']; [exact Hx|].
      pose proof (stk_read_keeps k (tar_on_save NS S SV (s_progress S src) s) (fun x => proper false (evs x) (Some w))
        (t_onsave (Some w) _ s) src x (Datatypes.S n') Hx) as Hk.
      destruct (s_read _ _ _ _ _) as [[src' x'] r]. cbn [fst snd] in Hk. destruct r; exact Hk.
    - intros [[src s] x] d Hx. cbn [ce_write tar_cenv fst snd k_write audited].
      destruct (k_write SK _ w d) as [t [[n adv] e]]. constructor. exact Hx.
    - intros [[src s] x] n Hx. cbn [ce_should tar_cenv fst snd]. destruct (sv_should SV _ n). exact Hx.
    - intros [[src s] x] Hx. exact Hx.
    - intros [[src s] x] Hx. exact Hx.
    - exact H.
  Qed.
  (** after the call: no writer is left open, unless it never returns *)
  Definition tproper (x : tx) (r : res unit) : Prop := exists cur, proper false (evs x) cur /\ (r <> Hang -> cur = None).
  Lemma t_extract fuel src s e x src' s' x' r : proper false (evs x) None ->
    tar_extract NS F S SV fuel src s e x = (src', s', x', r) -> tproper x' r.
  Proof.
    intros Hx. unfold tar_extract. destruct (en_kind e).
    - cbn [k_mkdir audited]. destruct (k_mkdir SK _ e) as [t [er|]]; intros [= <- <- <- <-]; exists None; (split; [constructor; exact Hx|auto]).
    - cbn [k_symlink audited]. destruct (k_symlink SK _ e _) as [t [er|]]; intros [= <- <- <- <-]; exists None; (split; [constructor; exact Hx|auto]).
    - cbn [k_getw audited]. destruct (k_getw SK _ e) as [t [w|er| |]].
      2-4: intros [= <- <- <- <-]; exists None; (split; [eapply PrGetWriter; exact Hx|auto]).
      match goal with |- context [copier_do ?E fuel ?X] => pose proof (t_copier w fuel X) as Hd; destruct (copier_do E fuel X) as [[[src2 s2] x2] r3] end.
      cbn [fst snd] in Hd.
      assert (H2 : proper false (evs x2) (Some w)). { apply Hd. eapply PrGetWriter. exact Hx. }
      destruct r3; intros [= <- <- <- <-]; [| | |exists (Some w); split; [exact H2|congruence]]; exists None; (split; [|auto]).
      all: cbn [t_sink tx_sink tar_reset tx_prog tx_state tx_ck k_closew audited]; destruct (k_closew SK _ w); apply PrCloseWriter; exact H2.
    - intros [= <- <- <- <-]. exists None. split; auto.
  Qed.
  Lemma t_iter fuel src s i x src' s' x' r : proper false (evs x) None ->
    tar_iter NS F S SV fuel src s i x = (src', s', x', r) -> tproper x' r.
  Proof.
    intros Hx. unfold tar_iter. cbv zeta. cbn [ec_entry]. destruct (ec_entry _) as [e|]; [apply t_extract; exact Hx|].
    destruct (sr_next _ _ _ _ _) as [[src1 s1] [h|er| |]].
    - destruct (tar_entry_of h) as [e|]; [apply t_extract; exact Hx|]. intros [= <- <- <- <-]. exists None. auto.
    - destruct er; intros [= <- <- <- <-]; exists None; auto.
    - intros [= <- <- <- <-]. exists None. auto.
    - intros [= <- <- <- <-]. exists None. auto.
  Qed.
  Lemma t_loop fuel : forall lf src s i x x' r, proper false (evs x) None ->
    tar_loop NS F S SV fuel lf src s i x = (x', r) -> tproper x' r.
  Proof.
    induction lf as [|lf IH]; intros src s i x x' r Hx; cbn [tar_loop].
    - destruct (t_stoperr NS S SV x); intros [= <- <-]; exists None; auto.
    - destruct (t_stoperr NS S SV x); [intros [= <- <-]; exists None; auto|].
      destruct (tar_iter NS F S SV fuel src s i x) as [[[src1 s1] x1] r1] eqn:Ei. destruct (t_iter _ _ _ _ _ _ _ _ _ Hx Ei) as (cur & H1 & H2).
      destruct r1 as [u|er| |]; [|intros [= <- <-]; exists cur..]; try (split; [exact H1|intros; apply H2; discriminate]).
      + apply IH. rewrite <- (H2 ltac:(discriminate)). exact H1.
      + split; [exact H1|]. cbn. congruence.
  Qed.
  Lemma t_run fuel src s ck ts keep st v out : out = tar_run NS F S SV fuel src s ck ts keep (st, []) v ->
    exists cur, proper false (snd (to_sink _ _ _ out)) cur /\ (to_res _ _ _ out <> Hang -> cur = None).
  Proof.
    intros Hout. unfold tar_run in Hout. destruct (tar_loop _ _ _ _ _ _ _ _ _ _) as [x r] eqn:El. subst out. cbn [to_sink to_res].
    assert (HT : tproper x r). { eapply t_loop; [|exact El]. apply PrStart. constructor. }
    destruct HT as (cur & H1 & H2).
    exists cur. split; [exact H1|]. intros H3. apply H2. intros ->. apply H3. reflexivity.
  Qed.
End Tar.

(** C63. Tar: never preallocates, and leaves no writer open when it returns. *)
Theorem C63_tar_sink_use SK F k (SV : saver (s_ck (stk_source k)) tstate) src fuel c s v out :
  out = tar_resume (audited SK) F (stk_source k) SV src fuel c (s, []) v ->
  exists cur, proper false (snd (to_sink _ _ _ out)) cur /\ (to_res _ _ _ out <> Hang -> cur = None).
Proof.
  intros Hout. assert (H0 : forall r : res (list entry), exists cur : option (k_w SK), proper false [] cur /\ (r <> Hang -> cur = None)).
  { intros r. exists None. split; [apply PrStart; constructor|auto]. }
  unfold tar_resume in Hout. destruct (tar_point _ c) as [[[ck ts] s0]|].
  - cbv zeta in Hout. destruct (s_resume _ src _) as [src1 [o|e| |]]; try (subst out; apply H0).
    destruct (if _ <? _ then _ else _) as [[src2 u] [u2|e| |]]; try (subst out; apply H0). eapply t_run. exact Hout.
  - destruct (s_resume _ src None) as [src1 [o|e| |]]; try (subst out; apply H0). eapply t_run. exact Hout.
Qed.

(** Not vacuous: the calls of two extractions *)
From Verif Require Import ExCodec ExSink ExZip ExTar Drive TarSpec ZipSpec.
Definition call_name {W} (v : aev W) : String.string :=
  match v with
  | AMkdir _ => "Mkdir" | ASymlink _ _ => "Symlink" | AGetWriter _ (Some _) => "GetWriter" | AGetWriter _ None => "GetWriter failed"
  | APreallocate _ => "Preallocate" | ANuke => "Nuke" | AClose => "Close" | AWrite _ _ => "Write" | ASync _ => "Sync" | ACloseWriter _ => "CloseWriter"
  end%string.
Example C63_zip_example :
  map call_name (snd (zo_sink _ _ _ _ (zip_resume (audited map_sink) exC exF ex_saver (zfiles ex_ms) ex_io 50 None (map_empty, []) (0%nat, [])))) =
  ["Preallocate"; "Preallocate"; "Preallocate"; "Mkdir"; "GetWriter"; "Write"; "Write"; "GetWriter"; "Write"; "Write"; "Sync"; "Write"; "Write"; "Sync"; "Write"; "Write";
   "GetWriter"; "Write"; "Symlink"]%string.
Proof. vm_compute. reflexivity. Qed.
Example C63_tar_example :
  map call_name (snd (to_sink _ _ _ (tar_resume (audited map_sink) et_fmt (stk_source et_k) et_saver (tsrc 0 54 et_k et_rs) 300 None (map_empty, []) 0%nat))) =
  ["Mkdir"; "GetWriter"; "Write"; "Write"; "Write"; "Write"; "Write"; "CloseWriter"; "GetWriter"; "Write"; "Write"; "Write"; "CloseWriter"; "Symlink"]%string.
Proof. vm_compute. reflexivity. Qed.

(** ** C64: Features *)
Lemma no_prealloc {W} (t : list (aev W)) cur : proper false t cur -> forall e, ~ In (APreallocate e) t.
Proof.
  induction 1; intros e0 Hin; try (apply in_app_or in Hin; destruct Hin as [Hin|[Hin|[]]]; [eapply IHproper; exact Hin|discriminate]).
  rewrite Forall_forall in H. destruct (H _ Hin). discriminate.
Qed.
(** Whatever the source says of itself, tar says Block if it says Block, and None otherwise. *)
Theorem C64_tar_support name sup :
  let f := tar_features (MkSfeat name sup) in
  (ef_support f = RsBlock <-> sup = RsBlock) /\ (sup <> RsBlock -> ef_support f = RsNone) /\ ef_source f = Some (MkSfeat name sup).
Proof. destruct sup; cbn; splits; auto; try discriminate; try congruence; split; congruence. Qed.
(** Every source of this package supports resuming at any block, however nested and counted. *)
Theorem C64_sources_support k n : let f := Nat.iter n counting_features (stk_features k) in
  f = stk_features k /\ sf_support f = RsBlock /\ ef_support (tar_features f) = RsBlock.
Proof.
  cbv zeta. assert (E : Nat.iter n counting_features (stk_features k) = stk_features k) by (induction n as [|n IH]; [reflexivity|exact IH]).
  rewrite E. split; [reflexivity|]. destruct k as [|C cfg fuel s]; split; reflexivity.
Qed.
(** An extractor that says it does not preallocate never does. *)
Theorem C64_tar_prealloc SK F k (SV : saver (s_ck (stk_source k)) tstate) src fuel c s v out :
  ef_prealloc (tar_features (stk_features k)) = false /\
  (out = tar_resume (audited SK) F (stk_source k) SV src fuel c (s, []) v -> forall e, ~ In (APreallocate e) (snd (to_sink _ _ _ out))).
Proof.
  split; [destruct k; reflexivity|]. intros Hout. destruct (C63_tar_sink_use _ _ _ _ _ _ _ _ _ _ Hout) as (cur & H & _). eapply no_prealloc. exact H.
Qed.
(** Zip says it does, and a run from the beginning that succeeds has asked for every file. *)
Theorem C64_zip_prealloc SK C fuel0 (SV : saver (zck C fuel0) unit) files io fuel s v out l sup :
  ef_prealloc (zip_features sup) = true /\ ef_random (zip_features sup) = true /\ ef_support (zip_features sup) = sup /\
  (out = zip_resume (audited SK) C fuel0 SV files io fuel None (s, []) v -> zo_res _ _ _ _ out = Ok l ->
   exists t, snd (zo_sink _ _ _ _ out) = map APreallocate (filter (fun e => match en_kind e with EkFile => true | _ => false end) (zlisting files)) ++ t /\
     forall e, ~ In (APreallocate e) t).
Proof.
  splits; try reflexivity. intros Hout Hres. unfold zip_resume in Hout. cbv zeta in Hout.
  assert (G : forall files s0, snd (zip_preallocate (audited SK) files s0) = None ->
    snd (fst (zip_preallocate (audited SK) files s0)) = snd s0 ++ map APreallocate (filter (fun e => match en_kind e with EkFile => true | _ => false end) (zlisting files))).
  { clear. induction files as [|f fs IH]; intros s0 H0; cbn [zip_preallocate] in *; [rewrite app_nil_r; reflexivity|].
    unfold zlisting. cbn [map filter]. change (zrecord_entry f) with (zip_entry_of f).
    destruct (en_kind (zip_entry_of f)) eqn:Hk; try (rewrite IH by exact H0; reflexivity).
    cbn [k_prealloc audited] in *. destruct (k_prealloc SK (fst s0) _) as [t [e|]]; [discriminate|].
    rewrite IH by exact H0. cbn [snd map]. rewrite <- app_assoc. reflexivity. }
  specialize (G files (s, [])). destruct (zip_preallocate (audited SK) files (s, [])) as [s1 perr] eqn:Hp.
  destruct perr as [e|]; [subst out; discriminate|]. specialize (G eq_refl). cbn [fst snd app] in G.
  cbn [ec_index] in Hout. change (0 <? 0) with false in Hout. cbv iota in Hout.
  match type of Hout with context [zip_loop ?a ?b ?c0 ?d ?e ?f ?g ?h ?i ?j ?x] =>
    pose proof (z_loop SK C fuel0 SV false (snd s1) e f j g h i x) as Hl; destruct (zip_loop a b c0 d e f g h i j x) as [x' r] end.
  destruct Hl as (cur & t & Ht & Hpr). { exists None, []. rewrite app_nil_r. split; [reflexivity|]. apply PrStart. constructor. }
  exists t. subst out. cbn [zo_sink fst] in *. rewrite <- G, Ht. split; [reflexivity|]. eapply no_prealloc. exact Hpr.
Qed.
