(** Props_checker2.v -- property C77: checker.RunExtractorText (the loop of Again.v, into a
    checker.Sink) accepts every correct extraction, however often it is stopped and resumed. *)
From Verif Require Import Base Base_proofs Source Contract Seek Decomp CodecSpec Drive SpoilSpec Stack_proofs Copier Sink SinkSpec Zip ZipSpec
  Settle_proofs Tar TarSpec Again ExCodec ExSink ExZip ExTar Misc Props_checker CheckerLaws Touched_proofs Props_again.
From Coq Require Import List Lia.

(** The Items of the checker.Sink are those of the archive: [its] is what the
    entries of the archive stand for, each at a path of its own. *)
Record expects (items : list (bytes * citem)) (its : list item) : Prop := MkExpects {
  ex_once : NoDup (map (fun i => en_path (fst i)) its);
  ex_keys : NoDup (map fst items);
  ex_key : forall p it, In (p, it) items -> en_path (ci_entry it) = p;
  ex_item : forall e nd, In (e, nd) its -> exists it, In (en_path e, it) items /\ en_kind (ci_entry it) = en_kind e /\
    match nd with NFile D => ci_data it = D | NLink t => en_link (ci_entry it) = t | NDir => True end;
  ex_all : forall p it, In (p, it) items -> exists e nd, In (e, nd) its /\ en_path e = p }.

Lemma assoc_in {V} : forall (l : list (bytes * V)) k v, NoDup (map fst l) -> In (k, v) l -> assoc l k = Some v.
Proof.
  induction l as [|[k0 v0] l IH]; intros k v Hn Hin; [destruct Hin|]. cbn [assoc]. cbn [map fst] in Hn. apply NoDup_cons_iff in Hn. destruct Hn as [Hn1 Hn2].
  destruct Hin as [Heq|Hin].
  - injection Heq as -> ->. rewrite bytes_eqb_refl. reflexivity.
  - destruct (bytes_eqb k0 k) eqn:E; [|auto]. apply bytes_eqb_eq in E. subst k0. destruct Hn1. apply in_map_iff. exists (k, v). auto.
Qed.

Lemma gerr_eq_stop (e : gerr) : {e = EStop} + {e <> EStop}.
Proof. destruct e; (left; reflexivity) || (right; discriminate). Qed.

Section Checked.
  Context (items : list (bytes * citem)) (its : list item) (HE : expects items its).
  Notation L := (checker_laws items).

  Lemma expects_assoc e nd : In (e, nd) its -> exists it, assoc items (en_path e) = Some it /\ en_kind (ci_entry it) = en_kind e /\
    match nd with NFile D => ci_data it = D | NLink t => en_link (ci_entry it) = t | NDir => True end.
  Proof.
    intros Hin. destruct (ex_item _ _ HE _ _ Hin) as (it & H1 & H2 & H3). exists it. split; [|auto].
    apply assoc_in; [exact (ex_keys _ _ HE)|exact H1].
  Qed.

  Lemma expects_last i e nd : nth_error its i = Some (e, nd) -> is_last L its i (en_path e).
  Proof.
    intros Hi j [e' nd'] Hlt Hj. cbn. intros E. injection E as E.
    assert (Hx : i = j); [|lia].
    refine (proj1 (NoDup_nth_error _) (ex_once _ _ HE) i j _ _).
    - rewrite map_length. apply nth_error_Some. intros E0. unfold item in *. rewrite Hi in E0. discriminate.
    - rewrite (map_nth_error _ _ _ Hi), (map_nth_error _ _ _ Hj). cbn [fst]. cbn in E. rewrite E. reflexivity.
  Qed.

  Lemma expects_storable : storable L its.
  Proof.
    split.
    - intros [e nd] Hin. destruct (expects_assoc e nd Hin) as (it & H1 & H2 & _). exists it. auto.
    - intros i e D l Hi Hl. right. cbn in Hl. injection Hl as <-. split; [exact (expects_last _ _ _ Hi)|].
      intros n. destruct (expects_assoc e (NFile D) (nth_error_In _ _ Hi)) as (it & H1 & _ & H3). exists it. split; [exact H1|].
      rewrite H3, firstn_length. destruct (Nat.le_ge_cases n (length D)) as [H|H]; [rewrite Nat.min_l by exact H; reflexivity|].
      rewrite Nat.min_r, firstn_all by exact H. apply firstn_all2. exact H.
  Qed.

  Lemma expects_vlink e t : In (e, NLink t) its -> kl_vlink L e t.
  Proof. intros Hin. destruct (expects_assoc e _ Hin) as (it & H1 & _ & H3). exists it. auto. Qed.

  (** If the sink holds the archive, Validate is satisfied. *)
  Lemma extracted_validates view0 s : sane s -> (forall e, In (e, NFile []) its -> touched s (en_path e)) -> extracted L its view0 s -> cs_validate items s = None.
  Proof.
    intros Hsn Hne (Hx & _ & _).
    assert (H : forall l, (forall p it, In (p, it) l -> In (p, it) items) -> cs_validate l s = None); [|apply H; auto].
    induction l as [|[p it] l IH]; intros Hl; [reflexivity|]. cbn [cs_validate].
    assert (Hin : In (p, it) items) by (apply Hl; left; reflexivity).
    specialize (IH (fun p' it' Hi => Hl p' it' (or_intror Hi))). pose proof (ex_key _ _ HE _ _ Hin) as Hk.
    destruct (ex_all _ _ HE _ _ Hin) as (e & nd & Hin2 & Hp). destruct (In_nth_error _ _ Hin2) as (i & Hi).
    destruct (expects_assoc e nd Hin2) as (it' & Ha & Hkd & Hnd). pose proof (assoc_in items p it (ex_keys _ _ HE) Hin) as Ha2.
    rewrite Hp in Ha. assert (it' = it) by congruence. subst it'.
    pose proof (Hx i e nd (en_path e) Hi eq_refl (expects_last _ _ _ Hi)) as Hv. rewrite Hp in Hv.
    change (cs_view items s p = Some nd) in Hv. unfold cs_view in Hv. rewrite Ha in Hv. rewrite Hk.
    destruct (cs_done s p) as [j|] eqn:Ej; [|discriminate]. set (d := nth j (cs_heap s) empty_ditem) in *.
    destruct (en_kind (ci_entry it)) eqn:Hki; auto.
    - destruct (bytes_eqb (di_link d) (en_link (ci_entry it))); [cbn [negb]; exact IH|discriminate].
    - destruct (last_w (cs_ws s) j) as [w|]; [|discriminate]. destruct (di_max d <=? zlen (ci_data it)) eqn:Hmx; [|discriminate].
      apply Z.leb_le in Hmx. injection Hv as <-. symmetry in Hnd.
      destruct (ci_data it) as [|b0 D0] eqn:Ed.
      + rewrite Hnd in Hin2. destruct (Hne _ Hin2) as (j2 & Hj2 & Hmin). rewrite Hp, Ej in Hj2. injection Hj2 as <-. fold d in Hmin. rewrite Hmin. cbn [Z.eqb negb].
        pose proof (proj2 (sn_min _ Hsn j)) as Hmax. fold d in Hmax. unfold zlen in *. cbn [length Z.of_nat] in *.
        assert (Em : di_max d =? 0 = true) by (apply Z.eqb_eq; lia). rewrite Em. cbn [negb]. exact IH.
      + rewrite <- Ed in *. assert (Hdne : ci_data it <> []) by (rewrite Ed; discriminate).
        pose proof (cells_all _ _ _ _ Hdne Hnd) as Hc. cbn [Nat.add] in Hc. unfold reach in Hc.
        assert (Hpos : (0 < length (ci_data it))%nat) by (rewrite Ed; cbn; lia).
        destruct (di_min d =? 0); [|lia]. cbn [negb].
        assert (Em : di_max d =? zlen (ci_data it) = true) by (apply Z.eqb_eq; unfold zlen in *; lia). rewrite Em. cbn [negb]. exact IH.
  Qed.
End Checked.

(** ** Zip *)
Section Zip.
  Context (A : bytes) (C : codec) (fuel0 : nat) (pol : bool) (ms : list zmember) (items : list (bytes * citem)).
  Context (Hok : Forall (zm_ok A C fuel0 pol) ms) (HE : expects items (zitems ms)).
  (** empty files are stored or deflated (see below) *)
  Context (Hne : forall m, In m ms -> zm_node m = NFile [] -> zm_via C fuel0 m <> None).
  Notation SK := (checker_sink items).
  (** RunExtractorText, allowing [left] resumes *)
  Notation run SV io fuel left v := (zip_again SK C fuel0 SV (zfiles ms) io fuel left 0 None cs_new v).

  Lemma checker_archive : zarchive A C fuel0 pol (checker_laws items) ms.
  Proof. split; [exact Hok|exact (expects_storable _ _ HE)]. Qed.
  Lemma cs_new_inv : cs_inv items cs_new.
  Proof. constructor; cbn; intros; try discriminate; destruct h; discriminate. Qed.

  Lemma zip_empty SV io fuel left v n out l : run SV io fuel left v = Some (n, out) -> zo_res _ _ _ _ out = Ok l ->
    sane (zo_sink _ _ _ _ out) /\ forall e, In (e, NFile []) (zitems ms) -> touched (zo_sink _ _ _ _ out) (en_path e).
  Proof.
    intros H Hr. destruct (zip_again_touch items C fuel0 SV (zfiles ms) io fuel left 0 None cs_new v n out l sane_new Logic.I H Hr) as [H1 H2].
    split; [exact H1|]. intros e Hin. destruct (expects_assoc _ _ HE e (NFile []) Hin) as (it & Ha & _ & Hd).
    unfold zitems in Hin. apply in_map_iff in Hin. destruct Hin as (m & Em & Hm). unfold zm_item in Em. injection Em as He Hn.
    destruct (In_nth_error _ _ Hm) as (j & Hj). specialize (Hne m Hm Hn). subst e.
    apply (H2 j (zm_file m)).
    - unfold zfiles. rewrite map_length. apply nth_error_Some. congruence.
    - unfold zfiles. apply map_nth_error. exact Hj.
    - unfold zm_via in Hne. unfold zwants. change (zip_entry_of (zm_file m)) with (zm_entry m). split; [|split].
      + destruct (en_kind (zm_entry m)); try (destruct Hne; reflexivity); reflexivity.
      + destruct (en_kind (zm_entry m)); try (destruct Hne; reflexivity). destruct (_ =? zip_store); [reflexivity|]. destruct (_ =? zip_deflate); [reflexivity|destruct Hne; reflexivity].
      + exists it. split; [exact Ha|exact Hd].
  Qed.

  (** Whatever fails, and however often the extraction is stopped: if it ends in success, Validate returns nil. *)
  Theorem C77_zip_validates_partial SV io fuel left v n out l : (forall k, ios_ok A pol ms (io k)) ->
    run SV io fuel left v = Some (n, out) -> zo_res _ _ _ _ out = Ok l -> cs_validate items (zo_sink _ _ _ _ out) = None.
  Proof.
    intros Hio H Hr. destruct (C66_zip_safe A C fuel0 pol SK (checker_laws items) ms checker_archive SV cs_new io fuel left v n out cs_new_inv Hio H) as [Hs _].
    destruct (zip_empty SV io fuel left v n out l H Hr) as [H1 H2].
    exact (extracted_validates items (zitems ms) HE _ _ H1 H2 (proj2 (Hs l Hr))).
  Qed.

  Lemma again_more : forall left k c s SV v io fuel r left', zip_again SK C fuel0 SV (zfiles ms) io fuel left k c s v = Some r -> (left <= left')%nat ->
    zip_again SK C fuel0 SV (zfiles ms) io fuel left' k c s v = Some r.
  Proof.
    induction left as [|left IH]; intros k c s SV v io fuel r left' H Hl; destruct left' as [|left']; try lia; cbn [zip_again] in *; cbv zeta in *;
      destruct (zo_res _ _ _ _ _) as [|[]| |]; auto; try discriminate. apply IH; [exact H|lia].
  Qed.

  Lemma again_count : forall left k c s SV v io fuel n out, zip_again SK C fuel0 SV (zfiles ms) io fuel left k c s v = Some (n, out) ->
    (k <= n)%nat /\ (n = k -> forall left', zip_again SK C fuel0 SV (zfiles ms) io fuel left' k c s v = Some (n, out)).
  Proof.
    assert (Hend : forall left k c s SV v io fuel, (forall e, zo_res _ _ _ _ (zip_resume SK C fuel0 SV (zfiles ms) (io k) fuel c s v) = Err e -> e <> EStop) ->
      zip_again SK C fuel0 SV (zfiles ms) io fuel left k c s v = Some (k, zip_resume SK C fuel0 SV (zfiles ms) (io k) fuel c s v)).
    { intros left k c s SV v io fuel H. destruct left; cbn [zip_again]; cbv zeta; destruct (zo_res _ _ _ _ _) as [|[]| |]; auto; destruct (H _ eq_refl eq_refl). }
    induction left as [|left IH]; intros k c s SV v io fuel n out H.
    - assert (Hn : forall e, zo_res _ _ _ _ (zip_resume SK C fuel0 SV (zfiles ms) (io k) fuel c s v) = Err e -> e <> EStop).
      { intros e He ->. cbn [zip_again] in H. cbv zeta in H. rewrite He in H. discriminate. }
      rewrite Hend in H by exact Hn. injection H as <- <-. split; [lia|]. intros _ left'. apply Hend. exact Hn.
    - destruct (zo_res _ _ _ _ (zip_resume SK C fuel0 SV (zfiles ms) (io k) fuel c s v)) as [x|e| |] eqn:Er.
      1,3,4: assert (Hn : forall e, zo_res _ _ _ _ (zip_resume SK C fuel0 SV (zfiles ms) (io k) fuel c s v) = Err e -> e <> EStop) by (rewrite Er; discriminate);
        rewrite Hend in H by exact Hn; injection H as <- <-; split; [lia|]; intros _ left'; apply Hend; exact Hn.
      destruct (gerr_eq_stop e) as [->|Hne'].
      + cbn [zip_again] in H. cbv zeta in H. rewrite Er in H. apply IH in H. destruct H as [H _]. split; [lia|]. intros; lia.
      + assert (Hn : forall e, zo_res _ _ _ _ (zip_resume SK C fuel0 SV (zfiles ms) (io k) fuel c s v) = Err e -> e <> EStop) by (rewrite Er; congruence).
        rewrite Hend in H by exact Hn. injection H as <- <-. split; [lia|]. intros _ left'. apply Hend. exact Hn.
  Qed.

  (** A sound archive passes the test, unless it needs more resumes than
      allowed, which it does not if there are as many as there are bytes. *)
  Theorem C77_zip_passes_partial : (forall m, In m ms -> zm_via C fuel0 m <> None -> zm_err m = EEof) -> existsb zencrypted ms = false ->
    exists B, forall SV io fuel left v,
      (forall k, ios_ok A pol ms (io k)) -> (forall k i, io_good (io k i)) -> saver_noerr SV -> (B < fuel)%nat ->
      match run SV io fuel left v with
      | None => (left < zbytes ms)%nat /\ ~ saver_goes_on SV
      | Some (n, out) => (n <= zbytes ms)%nat /\ zo_res _ _ _ _ out = Ok (zlisting (zfiles ms)) /\ cs_validate items (zo_sink _ _ _ _ out) = None
      end.
  Proof.
    intros Herr Henc. destruct (C66_zip_stop_resume A C fuel0 pol SK (checker_laws items) ms checker_archive) as (B & HB); [|exact Henc|].
    { apply Forall_forall. intros m Hm. split; [apply Herr; exact Hm|]. intros Hk. apply (expects_vlink _ _ HE).
      unfold zitems. apply in_map_iff. exists m. split; [|exact Hm]. unfold zm_item, zm_node. rewrite Hk. reflexivity. }
    exists B. intros SV io fuel left v Hio Hg Hsv Hf.
    destruct (HB SV cs_new io fuel (Nat.max left (zbytes ms)) v cs_new_inv Logic.I Hio Hg Hsv Hf ltac:(lia)) as (n & out & E1 & E2 & E3 & E4 & E5).
    destruct (run SV io fuel left v) as [[n' out']|] eqn:E.
    - pose proof (again_more _ _ _ _ _ _ _ _ _ (Nat.max left (zbytes ms)) E ltac:(lia)) as E'. rewrite E1 in E'. injection E' as <- <-.
      split; [exact E2|]. split; [exact E4|]. destruct (zip_empty _ _ _ _ _ _ _ _ E E4) as [H1 H2]. exact (extracted_validates items (zitems ms) HE _ _ H1 H2 E5).
    - split.
      + destruct (Nat.lt_ge_cases left (zbytes ms)) as [H|H]; [exact H|]. rewrite Nat.max_l, E in E1 by exact H. discriminate.
      + intros Hgo. destruct (again_count _ _ _ _ _ _ _ _ _ _ E1) as [_ H]. rewrite (H (E3 Hgo) left) in E. discriminate.
  Qed.
End Zip.

(** ** Tar *)
Section Tar.
  Context (pol : bool) (data : bytes) (start size : Z) (k : stk) (D : bytes) (tm : gerr) (F : tfmt) (N : nat).
  Context (ms : list tmember) (ok : bool) (items : list (bytes * citem)).
  Context (Hden : exists b byt p, stk_den pol data start size k D tm b byt p false) (Hlay : tlayout F D tm N 0 0 ms ok).
  Context (HE : expects items (titems ms)).
  Notation SK := (checker_sink items).
  Notation src rs := (fun j => tsrc start size k (rs j)).
  Notation run SV rs fuel left v := (tar_again SK F (stk_source k) SV (src rs) fuel left 0 None cs_new v).

  Lemma checker_tarchive : tarchive pol data start size k D tm F N ms ok (checker_laws items).
  Proof. split; [exact Hden|exact Hlay|exact (expects_storable _ _ HE)]. Qed.

  Lemma tar_empty (SV : saver (s_ck (stk_source k)) tstate) rs fuel left v n out : run SV rs fuel left v = Some (n, out) -> to_res _ _ _ out = Ok (tfiles (checker_laws items) ms) ->
    sane (to_sink _ _ _ out) /\ forall e, In (e, NFile []) (titems ms) -> touched (to_sink _ _ _ out) (en_path e).
  Proof.
    intros H Hr. destruct (tar_again_touch items F k SV (src rs) fuel left 0 None cs_new v n out _ sane_new Logic.I H Hr) as [H1 H2].
    split; [exact H1|]. intros e Hin. destruct (expects_assoc _ _ HE e (NFile []) Hin) as (it & Ha & _ & Hd).
    apply in_flat_map in Hin. destruct Hin as (m & Hm & Hin). unfold tm_item in Hin. destruct (tm_entry m) as [e0|] eqn:Ee; [|destruct Hin].
    destruct Hin as [Em|[]]. injection Em as -> Hn.
    set (e1 := set_woff e (zlen (tm_data m))).
    assert (Hin1 : In e1 (tfiles (checker_laws items) ms)).
    { apply in_flat_map. exists m. split; [exact Hm|]. unfold tm_written. rewrite Ee.
      unfold tm_node in Hn. unfold tm_entry, tar_entry_of in Ee. destruct (th_type (tm_hdr m)); try discriminate. left. reflexivity. }
    apply (H2 e1 Hin1). exists it. split; [exact Ha|exact Hd].
  Qed.

  Theorem C77_tar_validates (SV : saver (s_ck (stk_source k)) tstate) rs fuel left v n out l : (forall j, rs_ok pol data (rs j)) ->
    run SV rs fuel left v = Some (n, out) -> to_res _ _ _ out = Ok l -> cs_validate items (to_sink _ _ _ out) = None.
  Proof.
    intros Hio H Hr. destruct (C66_tar_safe pol data start size k D tm F N ms ok SK (checker_laws items) checker_tarchive SV cs_new rs fuel left v n out (cs_new_inv items) Hio H) as [Hs _].
    destruct (Hs l Hr) as (El & _ & Hx). rewrite El in Hr. destruct (tar_empty _ _ _ _ _ _ _ H Hr) as [H1 H2]. exact (extracted_validates items (titems ms) HE _ _ H1 H2 Hx).
  Qed.

  Lemma tagain_more : forall left j c s (SV : saver (s_ck (stk_source k)) tstate) v rs fuel r left', tar_again SK F (stk_source k) SV (src rs) fuel left j c s v = Some r -> (left <= left')%nat ->
    tar_again SK F (stk_source k) SV (src rs) fuel left' j c s v = Some r.
  Proof.
    induction left as [|left IH]; intros j c s SV v rs fuel r left' H Hl; destruct left' as [|left']; try lia; cbn [tar_again] in *; cbv zeta in *;
      destruct (to_res _ _ _ _) as [|[]| |]; auto; try discriminate. apply IH; [exact H|lia].
  Qed.
  Lemma tagain_count : forall left j c s (SV : saver (s_ck (stk_source k)) tstate) v rs fuel n out, tar_again SK F (stk_source k) SV (src rs) fuel left j c s v = Some (n, out) ->
    (j <= n)%nat /\ (n = j -> forall left', tar_again SK F (stk_source k) SV (src rs) fuel left' j c s v = Some (n, out)).
  Proof.
    assert (Hend : forall left j c s (SV : saver (s_ck (stk_source k)) tstate) v rs fuel, (forall e, to_res _ _ _ (tar_resume SK F (stk_source k) SV (src rs j) fuel c s v) = Err e -> e <> EStop) ->
      tar_again SK F (stk_source k) SV (src rs) fuel left j c s v = Some (j, tar_resume SK F (stk_source k) SV (src rs j) fuel c s v)).
    { intros left j c s SV v rs fuel H. destruct left; cbn [tar_again]; cbv zeta; destruct (to_res _ _ _ _) as [|[]| |]; auto; destruct (H _ eq_refl eq_refl). }
    induction left as [|left IH]; intros j c s SV v rs fuel n out H.
    - assert (Hn : forall e, to_res _ _ _ (tar_resume SK F (stk_source k) SV (src rs j) fuel c s v) = Err e -> e <> EStop).
      { intros e He ->. cbn [tar_again] in H. cbv zeta in H. rewrite He in H. discriminate. }
      rewrite Hend in H by exact Hn. injection H as <- <-. split; [lia|]. intros _ left'. apply Hend. exact Hn.
    - destruct (to_res _ _ _ (tar_resume SK F (stk_source k) SV (src rs j) fuel c s v)) as [x|e| |] eqn:Er.
      1,3,4: assert (Hn : forall e, to_res _ _ _ (tar_resume SK F (stk_source k) SV (src rs j) fuel c s v) = Err e -> e <> EStop) by (rewrite Er; discriminate);
        rewrite Hend in H by exact Hn; injection H as <- <-; split; [lia|]; intros _ left'; apply Hend; exact Hn.
      destruct (gerr_eq_stop e) as [->|Hne'].
      + cbn [tar_again] in H. cbv zeta in H. rewrite Er in H. apply IH in H. destruct H as [H _]. split; [lia|]. intros; lia.
      + assert (Hn : forall e, to_res _ _ _ (tar_resume SK F (stk_source k) SV (src rs j) fuel c s v) = Err e -> e <> EStop) by (rewrite Er; congruence).
        rewrite Hend in H by exact Hn. injection H as <- <-. split; [lia|]. intros _ left'. apply Hend. exact Hn.
  Qed.

  Theorem C77_tar_passes : tm = EEof -> ok = true ->
    exists B, forall (SV : saver (s_ck (stk_source k)) tstate) rs fuel left v,
      (forall j, rs_ok pol data (rs j)) -> (forall j, rs_good (rs j)) -> saver_noerr SV -> (B < fuel)%nat ->
      match run SV rs fuel left v with
      | None => (left < length D)%nat /\ ~ saver_goes_on SV
      | Some (n, out) => (n <= length D)%nat /\ (exists l, to_res _ _ _ out = Ok l) /\ cs_validate items (to_sink _ _ _ out) = None
      end.
  Proof.
    intros Ht Hk. destruct (C66_tar_stop_resume pol data start size k D tm F N ms ok SK (checker_laws items) checker_tarchive Ht Hk (fun e t Hin => expects_vlink _ _ HE e t Hin)) as (B & HB).
    exists B. intros SV rs fuel left v Hio Hg Hsv Hf.
    destruct (HB SV cs_new rs fuel (Nat.max left (length D)) v (cs_new_inv items) Logic.I Hio Hg Hsv Hf ltac:(lia)) as (n & out & E1 & E2 & E3 & E4 & E5).
    destruct (run SV rs fuel left v) as [[n' out']|] eqn:E.
    - pose proof (tagain_more _ _ _ _ _ _ _ _ _ (Nat.max left (length D)) E ltac:(lia)) as E'. rewrite E1 in E'. injection E' as <- <-.
      split; [exact E2|]. split; [eauto|]. destruct (tar_empty _ _ _ _ _ _ _ E E4) as [H1 H2]. exact (extracted_validates items (titems ms) HE _ _ H1 H2 E5).
    - split.
      + destruct (Nat.lt_ge_cases left (length D)) as [H|H]; [exact H|]. rewrite Nat.max_l, E in E1 by exact H. discriminate.
      + intros Hgo. destruct (tagain_count _ _ _ _ _ _ _ _ _ _ E1) as [_ H]. rewrite (H (E3 Hgo) left) in E. discriminate.
  Qed.
End Tar.

(** ** Concrete cases *)
Definition eitem (p : bytes) (kd : ekind) (link data : bytes) : bytes * citem :=
  (p, MkCitem {| en_path := p; en_kind := kd; en_mode := 0; en_csize := 0; en_usize := 0; en_woff := 0; en_link := link |} data).
Definition ea_items : list (bytes * citem) :=
  [eitem (s2b "l") EkSymlink (s2b "b") []; eitem (s2b "d/") EkDir [] []; eitem (s2b "d/a") EkFile [] (s2b "hello");
   eitem (s2b "b") EkFile [] (s2b "aabbcc"); eitem (s2b "c") EkFile [] (s2b "aabbcc")].
Ltac nodup := repeat (apply NoDup_cons; [let H := fresh in intros H; repeat (destruct H as [H|H]; [vm_compute in H; discriminate|]); exact H|]); apply NoDup_nil.
Lemma ea_expects : expects ea_items (zitems ea_ms).
Proof.
  constructor.
  - change (map (fun i => en_path (fst i)) (zitems ea_ms)) with [s2b "d/"; s2b "d/a"; s2b "b"; s2b "c"; s2b "l"]. nodup.
  - change (map fst ea_items) with [s2b "l"; s2b "d/"; s2b "d/a"; s2b "b"; s2b "c"]. nodup.
  - intros p it H. repeat (destruct H as [E|H]; [injection E as <- <-; reflexivity|]). destruct H.
  - intros e nd H.
    repeat (destruct H as [E|H]; [unfold zm_item in E; injection E as <- <-; eexists; split; [vm_compute; eauto 10|split; reflexivity || exact Logic.I]|]). destruct H.
  - assert (Hp : forall m, In m ea_ms -> exists e nd, In (e, nd) (zitems ea_ms) /\ en_path e = en_path (zm_entry m)).
    { intros m Hm. exists (zm_entry m), (zm_node m). split; [exact (in_map zm_item ea_ms m Hm)|reflexivity]. }
    intros p it H. destruct H as [E|[E|[E|[E|[E|[]]]]]]; injection E as <- <-.
    + apply (Hp ex_m4). cbn; auto 10.
    + apply (Hp ex_m0). cbn; auto 10.
    + apply (Hp ex_m1). cbn; auto 10.
    + apply (Hp ex_m2). cbn; auto 10.
    + apply (Hp ea_m3). cbn; auto 10.
Qed.

Lemma ea_nonempty : forall m, In m ea_ms -> zm_node m = NFile [] -> zm_via exC exF m <> None.
Proof. intros m Hm. repeat (destruct Hm as [<-|Hm]; [intros E; vm_compute in E; discriminate E|]). destruct Hm. Qed.
Definition ea_run := zip_again (checker_sink ea_items) exC exF stopper (zfiles ea_ms) (fun _ => ea_io) 50 100 0 None cs_new 0%nat.
Example C77_zip_example_run : option_map (fun r => (fst r, cs_validate ea_items (zo_sink (checker_sink ea_items) exC exF stopper (snd r)))) ea_run = Some (2%nat, None).
Proof. vm_compute. reflexivity. Qed.
Example C77_zip_example : exists B, forall fuel left, (B < fuel)%nat ->
  match zip_again (checker_sink ea_items) exC exF stopper (zfiles ea_ms) (fun _ => ea_io) fuel left 0 None cs_new 0%nat with
  | None => (left < zbytes ea_ms)%nat
  | Some (n, out) => (n <= zbytes ea_ms)%nat /\ zo_res _ _ _ _ out = Ok (zlisting (zfiles ea_ms)) /\ cs_validate ea_items (zo_sink _ _ _ _ out) = None
  end.
Proof.
  destruct (C77_zip_passes_partial exA exC exF false ea_ms ea_items (za_ok _ _ _ _ _ _ ea_archive) ea_expects ea_nonempty) as (B & H).
  - intros m Hm _. repeat (destruct Hm as [<-|Hm]; [reflexivity|]). destruct Hm.
  - reflexivity.
  - exists B. intros fuel left Hf. specialize (H stopper (fun _ => ea_io) fuel left 0%nat (fun _ => ea_ios) (fun _ => ea_io_good) stopper_noerr Hf).
    destruct (zip_again _ _ _ _ _ _ _ _ _ _ _ _) as [[n out]|]; [exact H|exact (proj1 H)].
Qed.

(** An empty file that is not stored or deflated (here: LZMA) is copied with io.Copy, which
    does not call Write: Validate says the start of the file is missing, although the
    extraction is right. *)
Definition ev_m := MkZm (MkZf (s2b "e") 0 0 0 0 14) 0 [] EEof.
Definition ev_items : list (bytes * citem) := [eitem (s2b "e") EkFile [] []].
Definition ev_io : nat -> zio := fun i => MkZio (Ok 0) (fun off n => MkRs (slice [] (Z.to_nat off) (Z.to_nat n)) 0 [] []) (Ok ([], None)).
Theorem C77_empty_refuted : 
  zm_ok [] exC exF false ev_m /\ expects ev_items (zitems [ev_m]) /\ ios_ok [] false [ev_m] ev_io /\ (forall i, io_good (ev_io i)) /\
  option_map (fun r => (zo_res (checker_sink ev_items) exC exF stopper (snd r), cs_validate ev_items (zo_sink (checker_sink ev_items) exC exF stopper (snd r))))
    (zip_again (checker_sink ev_items) exC exF stopper (zfiles [ev_m]) (fun _ => ev_io) 50 100 0 None cs_new 0%nat) =
  Some (Ok (zlisting (zfiles [ev_m])), Some (EOther 51)).
Proof.
  split; [exact Logic.I|]. split; [|split; [|split]].
  - constructor.
    + change (map (fun i => en_path (fst i)) (zitems [ev_m])) with [s2b "e"]. nodup.
    + change (map fst ev_items) with [s2b "e"]. nodup.
    + intros p it [E|[]]. injection E as <- <-. reflexivity.
    + intros e nd [E|[]]. unfold zm_item in E. injection E as <- <-. eexists. split; [left; reflexivity|split; reflexivity].
    + intros p it [E|[]]. injection E as <- <-. exists (zm_entry ev_m), (zm_node ev_m). split; [left; reflexivity|reflexivity].
  - intros i m Hm. split; [|split].
    + destruct i as [|[|i]]; try discriminate. injection Hm as <-. reflexivity.
    + intros off n. split; [reflexivity|]. intros H; discriminate.
    + destruct i as [|[|i]]; try discriminate. injection Hm as <-. reflexivity.
  - intros i. split; [|split]; cbn; eauto. intros. split; cbn; auto.
  - vm_compute. reflexivity.
Qed.

(** The same file, stored, is a case of the theorem. *)
Definition es_m := MkZm (MkZf (s2b "e") 0 0 0 0 0) 0 [] EEof.
Example C77_empty_stored_example SV fuel left v n out l : zip_again (checker_sink ev_items) exC exF SV (zfiles [es_m]) (fun _ => ev_io) fuel left 0 None cs_new v = Some (n, out) ->
  zo_res _ _ _ _ out = Ok l -> cs_validate ev_items (zo_sink _ _ _ _ out) = None.
Proof.
  apply (C77_zip_validates_partial [] exC exF false [es_m] ev_items).
  - constructor; [|constructor]. unfold zm_ok, zm_via. cbn [en_kind zm_entry]. change (exists b byt p, stk_den false (slice [] 0 0) 0 0 KSeek [] EEof b byt p false).
    eexists _, _, _. apply (DenSeek false [] 0 0); unfold two63; lia.
  - constructor.
    + change (map (fun i => en_path (fst i)) (zitems [es_m])) with [s2b "e"]. nodup.
    + change (map fst ev_items) with [s2b "e"]. nodup.
    + intros p it [E|[]]. injection E as <- <-. reflexivity.
    + intros e nd [E|[]]. unfold zm_item in E. injection E as <- <-. eexists. split; [left; reflexivity|split; reflexivity].
    + intros p it [E|[]]. injection E as <- <-. exists (zm_entry es_m), (zm_node es_m). split; [left; reflexivity|reflexivity].
  - intros m [<-|[]] _. vm_compute. discriminate.
  - intros _ i m Hm. split; [|split].
    + destruct i as [|[|i]]; try discriminate. injection Hm as <-. reflexivity.
    + intros off k. split; [reflexivity|]. intros H; discriminate.
    + destruct i as [|[|i]]; try discriminate. injection Hm as <-. reflexivity.
Qed.
Example C77_empty_stored_run : option_map (fun r => cs_validate ev_items (zo_sink (checker_sink ev_items) exC exF stopper (snd r)))
  (zip_again (checker_sink ev_items) exC exF stopper (zfiles [es_m]) (fun _ => ev_io) 50 100 0 None cs_new 0%nat) = Some None.
Proof. vm_compute. reflexivity. Qed.

Definition etc_items : list (bytes * citem) :=
  [eitem (s2b "c") EkFile [] (s2b "hhii"); eitem (s2b "d") EkDir [] []; eitem (s2b "b") EkFile [] (s2b "aabbcc"); eitem (s2b "l") EkSymlink (s2b "b") []].
Lemma et_expects : expects etc_items (titems et_ms).
Proof.
  constructor.
  - assert (E : map (fun i => en_path (fst i)) (titems et_ms) = [s2b "d"; s2b "b"; s2b "c"; s2b "l"]) by (vm_compute; reflexivity). rewrite E. nodup.
  - change (map fst etc_items) with [s2b "c"; s2b "d"; s2b "b"; s2b "l"]. nodup.
  - intros p it H. repeat (destruct H as [E|H]; [injection E as <- <-; reflexivity|]). destruct H.
  - intros e nd H. apply in_flat_map in H. destruct H as (m & Hm & H).
    repeat (destruct Hm as [<-|Hm]; [cbn in H; try (destruct H as [E|[]]; injection E as <- <-; eexists; split; [vm_compute; eauto 10|split; reflexivity || exact Logic.I]); try destruct H|]). destruct Hm.
  - assert (Hp : forall m e, In m et_ms -> tm_entry m = Some e -> exists e' nd, In (e', nd) (titems et_ms) /\ en_path e' = en_path e).
    { intros m e Hm He. exists e, (tm_node m). split; [|reflexivity]. apply in_flat_map. exists m. split; [exact Hm|]. unfold tm_item. rewrite He. left. reflexivity. }
    assert (Hq : forall i p, option_map en_path (match nth_error et_ms i with Some m => tm_entry m | None => None end) = Some p -> exists e' nd, In (e', nd) (titems et_ms) /\ en_path e' = p).
    { intros i p Hi. destruct (nth_error et_ms i) as [m|] eqn:En; [|discriminate]. destruct (tm_entry m) as [e|] eqn:Ee; [|discriminate].
      injection Hi as <-. exact (Hp m e (nth_error_In _ _ En) Ee). }
    intros p it H. destruct H as [E|[E|[E|[E|[]]]]]; injection E as <- <-;
      first [apply (Hq 0%nat); vm_compute; reflexivity|apply (Hq 1%nat); vm_compute; reflexivity|apply (Hq 2%nat); vm_compute; reflexivity|apply (Hq 3%nat); vm_compute; reflexivity|apply (Hq 4%nat); vm_compute; reflexivity].
Qed.
Definition etc_run := tar_again (checker_sink etc_items) et_fmt (stk_source et_k) stopper (fun _ => tsrc 0 54 et_k et_rs) 300 100 0 None cs_new 0%nat.
Example C77_tar_example_run : option_map (fun r => (fst r, cs_validate etc_items (to_sink (checker_sink etc_items) (stk_source et_k) stopper (snd r)))) etc_run = Some (1%nat, None).
Proof. vm_compute. reflexivity. Qed.
Example C77_tar_example : exists B, forall fuel left, (B < fuel)%nat ->
  match tar_again (checker_sink etc_items) et_fmt (stk_source et_k) stopper (fun _ => tsrc 0 54 et_k et_rs) fuel left 0 None cs_new 0%nat with
  | None => (left < length et_D)%nat
  | Some (n, out) => (n <= length et_D)%nat /\ cs_validate etc_items (to_sink _ _ _ out) = None
  end.
Proof.
  destruct (C77_tar_passes false et_in 0 54 et_k et_D EEof et_fmt 5 et_ms true etc_items (ta_den _ _ _ _ _ _ _ _ _ _ _ _ et_archive)
    (ta_layout _ _ _ _ _ _ _ _ _ _ _ _ et_archive) et_expects eq_refl eq_refl) as (B & H).
  exists B. intros fuel left Hf.
  assert (H1 : rs_ok false et_in et_rs) by (split; [reflexivity|]; intros Hx; discriminate).
  assert (H2 : rs_good et_rs) by (split; cbn; auto).
  specialize (H stopper (fun _ => et_rs) fuel left 0%nat (fun _ => H1) (fun _ => H2) stopper_noerr Hf).
  destruct (tar_again _ _ _ _ _ _ _ _ _ _ _) as [[n out]|]; [exact (conj (proj1 H) (proj2 (proj2 H)))|exact (proj1 H)].
Qed.
