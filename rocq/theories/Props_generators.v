(** Props_generators.v -- property C80: the archives made by checker.MakeZip and
    checker.MakeTar from checker.MakeTestSink, or from any other checker.Sink, test the extractors
    soundly, whatever the random numbers and the iteration order of the map. *)
From Verif Require Import Base Base_proofs Path Source Contract Seek Decomp CodecSpec Drive SpoilSpec Stack_proofs Copier Sink SinkSpec Zip ZipSpec
  Tar TarSpec Again StopSpec ExCodec ExSink ExZip ExTar Misc Props_misc Props_checker CheckerLaws Props_again Props_checker2 Generators GeneratorsSpec.
From Coq Require Import List Lia Permutation Decimal DecimalNat.

(** ** Names *)
Lemma uint_bytes_inj : forall a b, uint_bytes a = uint_bytes b -> a = b.
Proof.
  induction a; destruct b; cbn [uint_bytes]; intros E; try discriminate E; try reflexivity; injection E as E; f_equal; auto.
Qed.
Lemma dec_inj a b : dec a = dec b -> a = b.
Proof. intros E. apply uint_bytes_inj in E. rewrite <- (Unsigned.of_to a), <- (Unsigned.of_to b), E. reflexivity. Qed.

(** MakeTestSink's names: no two the same. *)
Definition gen_name (p : bytes) (i : nat) : Prop := p = s2b "symlink-" ++ dec i \/ p = s2b "dir-" ++ dec i \/ p = s2b "file-" ++ dec i.
Lemma gen_name_inj p i j : gen_name p i -> gen_name p j -> i = j.
Proof.
  unfold gen_name. intros [->|[->| ->]] [E|[E|E]]; try (apply app_inv_head in E; apply dec_inj; exact E); vm_compute in E; discriminate E.
Qed.

Section TestSink.
  Context (R : Type) (intn int63n : R -> Z -> R * Z) (R0 : Type) (intn0 : R0 -> Z -> R0 * Z) (seed : R0) (fuel : nat).
  Context (H63 : in_range int63n).
  Notation make := (make_test_sink R intn int63n R0 intn0 seed fuel).
  Notation items_loop := (make_items R intn int63n R0 intn0 seed fuel).

  Definition gen_item (p : bytes) (it : citem) : Prop :=
    en_path (ci_entry it) = p /\ (en_kind (ci_entry it) = EkDir \/ en_kind (ci_entry it) = EkFile) /\
    en_usize (ci_entry it) = zlen (ci_data it) /\ zlen (ci_data it) < 4 * 1024 * 1024.

  Definition gen_ok (items : list (bytes * citem)) (i : nat) : Prop :=
    length items = i /\ NoDup (map fst items) /\ forall p it, In (p, it) items -> gen_item p it /\ exists j, (j < i)%nat /\ gen_name p j.

  Lemma put_new items i p it : gen_ok items i -> gen_name p i -> gen_item p it -> gen_ok (map_put items p it) (S i).
  Proof.
    intros (H1 & H2 & H3) Hn Hi.
    assert (Hf : forall q x, In (q, x) items -> q <> p).
    { intros q x Hin ->. destruct (H3 _ _ Hin) as (_ & j & Hj & Hj2). pose proof (gen_name_inj _ _ _ Hn Hj2). lia. }
    assert (E : map_put items p it = items ++ [(p, it)]).
    { unfold map_put. f_equal. clear H1 H2 H3. induction items as [|[q x] items IH]; [reflexivity|]. cbn [filter fst].
      assert (Hq : bytes_eqb q p = false) by (apply bytes_eqb_neq; exact (Hf q x (or_introl eq_refl))). rewrite Hq. cbn [negb].
      f_equal. apply IH. intros q' x' Hin. exact (Hf q' x' (or_intror Hin)). }
    rewrite E. split; [|split].
    - rewrite app_length. cbn [length]. lia.
    - rewrite map_app. cbn [map fst]. apply (Permutation_NoDup (Permutation_cons_append _ _)). constructor; [|exact H2].
      intros Hin. apply in_map_iff in Hin. destruct Hin as ([q x] & Hq & Hin). exact (Hf _ _ Hin Hq).
    - intros q x Hin. apply in_app_or in Hin. destruct Hin as [Hin|[Hin|[]]].
      + destruct (H3 _ _ Hin) as (G & j & Hj & Hg). split; [exact G|]. exists j. split; [lia|exact Hg].
      + injection Hin as <- <-. split; [exact Hi|]. exists i. split; [lia|exact Hn].
  Qed.

  Lemma make_items_ok : forall n i r items out, gen_ok items i -> items_loop n i r items = Ok out -> gen_ok out (n + i).
  Proof.
    induction n as [|n IH]; intros i r items out Hg; cbn [make_items].
    - intros E. injection E as <-. exact Hg.
    - replace (S n + i)%nat with (n + S i)%nat by lia.
      destruct (intn r 100) as [r1 a]. destruct (a <? 10).
      { apply IH. apply put_new; [exact Hg|left; reflexivity|]. split; [reflexivity|]. split; [left; reflexivity|]. split; [reflexivity|]. reflexivity. }
      destruct (intn r1 100) as [r2 b]. destruct (b <? 20).
      { apply IH. apply put_new; [exact Hg|right; left; reflexivity|]. split; [reflexivity|]. split; [left; reflexivity|]. split; [reflexivity|]. reflexivity. }
      pose proof (H63 r2 (4 * 1024 * 1024) ltac:(lia)) as Hr. destruct (int63n r2 (4 * 1024 * 1024)) as [r3 size]. cbn [snd] in Hr.
      destruct (sr_bytes R0 intn0 fuel seed size) as [d| | |] eqn:Ed; try discriminate.
      apply IH. apply put_new; [exact Hg|right; right; reflexivity|].
      destruct (C54_prefix R0 intn0 fuel fuel seed size size d d ltac:(lia) Ed Ed) as (Hd & _).
      split; [reflexivity|]. split; [right; reflexivity|]. cbn [ci_entry en_usize ci_data]. rewrite Hd. split; [reflexivity|lia].
  Qed.

  Lemma uint_bytes_digits : forall u b, In b (uint_bytes u) -> b <> "/"%char /\ b <> "\"%char.
  Proof. induction u; cbn [uint_bytes]; intros b Hin; try destruct Hin as [<-|Hin]; try (split; discriminate); auto; destruct Hin. Qed.
  Lemma gen_name_plain p i : gen_name p i -> forall b, In b p -> b <> "/"%char /\ b <> "\"%char.
  Proof.
    intros H b Hin. destruct H as [->|[->| ->]]; apply in_app_or in Hin; destruct Hin as [Hin|Hin]; try exact (uint_bytes_digits _ b Hin);
      repeat (destruct Hin as [<-|Hin]; [split; discriminate|]); destruct Hin.
  Qed.

  (** n items; each under its own path, without slashes and backslashes; directories and
      files only; the UncompressedSize of a file is the number of its bytes. *)
  Theorem C80_test_sink n r items : make n r = Ok items ->
    length items = n /\ well_keyed items /\
    forall p it, In (p, it) items ->
      (forall b, In b p -> b <> "/"%char /\ b <> "\"%char) /\ (en_kind (ci_entry it) = EkDir \/ en_kind (ci_entry it) = EkFile) /\
      en_usize (ci_entry it) = zlen (ci_data it) /\ zlen (ci_data it) < 4 * 1024 * 1024.
  Proof.
    intros E. assert (H0 : gen_ok [] 0) by (split; [reflexivity|]; split; [constructor|]; intros p it []).
    destruct (make_items_ok n 0 r [] items H0 E) as (H1 & H2 & H3). rewrite Nat.add_0_r in H1. split; [exact H1|]. split; [split; [exact H2|]|].
    - intros p it Hin. destruct (H3 _ _ Hin) as ((G1 & G2 & _) & _). split; [exact G1|]. intros k E'. destruct G2 as [G2|G2]; rewrite G2 in E'; discriminate.
    - intros p it Hin. destruct (H3 _ _ Hin) as ((_ & G) & j & _ & Hj). split; [exact (gen_name_plain p j Hj)|exact G].
  Qed.

  (** The items meant as symlinks (maketestsink.go:19-28) are directories: the tests
      never have a symlink to extract. *)
  Theorem C80_never_a_symlink n r items : make n r = Ok items -> forall p it, In (p, it) items -> en_kind (ci_entry it) <> EkSymlink.
  Proof. intros E p it Hin. destruct (C80_test_sink n r items E) as (_ & _ & H). destruct (H p it Hin) as (_ & [H1|H1] & _); rewrite H1; discriminate. Qed.
End TestSink.

(** ** Any sink *)

Lemma F2_length {X Y} (P : X -> Y -> Prop) : forall l l', Forall2 P l l' -> length l = length l'.
Proof. intros l l' H. induction H; cbn [length]; congruence. Qed.

Section Any.
  Context (items order : list (bytes * citem)) (Hk : well_keyed items) (Hp : Permutation items order).

  Lemma order_in p it : In (p, it) order -> In (p, it) items.
  Proof. intros H. exact (Permutation_in _ (Permutation_sym Hp) H). Qed.
  Lemma in_order p it : In (p, it) items -> In (p, it) order.
  Proof. intros H. exact (Permutation_in _ Hp H). Qed.
  Lemma order_once : NoDup (map fst order).
  Proof. exact (Permutation_NoDup (Permutation_map fst Hp) (proj1 Hk)). Qed.
End Any.

Lemma well_keyed_perm items order : well_keyed items -> Permutation items order -> well_keyed order.
Proof.
  intros Hk Hp. split; [exact (order_once items order Hk Hp)|]. intros p it H. exact (proj2 Hk p it (order_in items order Hp p it H)).
Qed.

(** expects does not look at the order of the Items *)
Lemma expects_perm items order its : Permutation items order -> expects order its -> expects items its.
Proof.
  intros Hp [H1 H2 H3 H4 H5]. constructor; auto.
  - exact (Permutation_NoDup (Permutation_map fst (Permutation_sym Hp)) H2).
  - intros p it H. apply H3. exact (Permutation_in _ Hp H).
  - intros e nd H. destruct (H4 e nd H) as (it & G1 & G2). exists it. split; [exact (Permutation_in _ (Permutation_sym Hp) G1)|exact G2].
  - intros p it H. apply (H5 p it). exact (Permutation_in _ Hp H).
Qed.

Lemma well_keyed_cons p it l : well_keyed ((p, it) :: l) -> well_keyed l /\ en_path (ci_entry it) = p /\ ~ In p (map fst l) /\ forall n, en_kind (ci_entry it) <> EkOther n.
Proof.
  intros [H1 H2]. cbn [map fst] in H1. apply NoDup_cons_iff in H1. destruct H1 as [H1 H1'].
  destruct (H2 p it (or_introl eq_refl)) as [H3 H4]. split; [|auto]. split; [exact H1'|]. intros q x H. exact (H2 q x (or_intror H)).
Qed.

(** One more entry in front. *)
Lemma expects_cons p it l e nd its : expects l its -> en_path (ci_entry it) = p -> ~ In p (map fst l) -> en_path e = p -> en_kind (ci_entry it) = en_kind e ->
  match nd with NFile D => ci_data it = D | NLink t => en_link (ci_entry it) = t | NDir => True end ->
  expects ((p, it) :: l) ((e, nd) :: its).
Proof.
  intros [H1 H2 H3 H4 H5] Hp Hn He Hkd Hnd. constructor.
  - cbn [map fst]. constructor; [|exact H1]. intros Hin. apply in_map_iff in Hin. destruct Hin as ([e' nd'] & E & Hin). cbn [fst] in E.
    destruct (H4 _ _ Hin) as (it' & Hi & _). apply Hn. apply in_map_iff. exists (en_path e', it'). split; [cbn [fst]; congruence|exact Hi].
  - cbn [map fst]. constructor; assumption.
  - intros q x [E|Hin]; [injection E as <- <-; exact Hp|auto].
  - intros e' nd' [E|Hin].
    + injection E as <- <-. exists it. rewrite He. split; [left; reflexivity|auto].
    + destruct (H4 _ _ Hin) as (it' & G1 & G2). exists it'. split; [right; exact G1|exact G2].
  - intros q x [E|Hin].
    + injection E as <- <-. exists e, nd. split; [left; reflexivity|exact He].
    + destruct (H5 _ _ Hin) as (e' & nd' & G1 & G2). exists e', nd'. split; [right; exact G1|exact G2].
Qed.
Lemma expects_nil : expects [] [].
Proof. constructor; cbn; try constructor; intros; contradiction. Qed.

Section ZipMade.
  Context (A : bytes) (C : codec) (fuel0 : nat) (pol : bool).

  Lemma made_zip : forall order comp ms, well_keyed order -> zip_holds A C fuel0 pol (make_zip order comp) ms ->
    expects order (zitems ms) /\ Forall (zm_ok A C fuel0 pol) ms /\ existsb zencrypted ms = false /\
    (forall m, In m ms -> zm_err m = EEof) /\ (forall m, In m ms -> zm_node m = NFile [] -> zm_via C fuel0 m <> None) /\
    zip_support (zfiles ms) = RsBlock.
  Proof.
    assert (Hs : forall fs, (forall f, In f fs -> zf_method f <> zip_lzma) -> zip_support fs = RsBlock).
    { intros fs H. unfold zip_support. assert (G : forall fs s, (forall f, In f fs -> zf_method f <> zip_lzma) ->
        fold_left (fun s f => if zf_method f =? zip_lzma then RsEntry else s) fs s = s); [|apply G; exact H].
      clear. induction fs as [|f fs IH]; intros s H; [reflexivity|]. cbn [fold_left].
      destruct (zf_method f =? zip_lzma) eqn:E; [apply Z.eqb_eq in E; destruct (H f (or_introl eq_refl) E)|].
      apply IH. intros g Hg. exact (H g (or_intror Hg)). }
    intros order comp ms Hk H.
    assert (G : expects order (zitems ms) /\ (forall m, In m ms -> zf_method (zm_file m) <> zip_lzma) /\ Forall (zm_ok A C fuel0 pol) ms /\ existsb zencrypted ms = false /\
      (forall m, In m ms -> zm_err m = EEof) /\ (forall m, In m ms -> zm_node m = NFile [] -> zm_via C fuel0 m <> None)).
    2:{ destruct G as (G1 & G2 & G3). split; [exact G1|]. repeat (split; [apply G3|]). apply Hs.
        intros f Hf. apply in_map_iff in Hf. destruct Hf as (m & <- & Hm). exact (G2 m Hm). }
    revert comp ms H. induction order as [|[p it] order IH]; intros comp ms H; cbn [make_zip] in H.
    - inversion H. subst. split; [exact expects_nil|]. split; [intros m []|]. split; [constructor|]. split; [reflexivity|]. split; intros m [].
    - destruct (well_keyed_cons _ _ _ Hk) as (Hk' & Hpath & Hnew & Hother).
      assert (Hone : forall w ws, zip_holds A C fuel0 pol (w :: ws) ms -> zw_name w = p ->
        (forall ms', zip_holds A C fuel0 pol ws ms' -> exists comp', zip_holds A C fuel0 pol (make_zip order comp') ms') ->
        (forall f, zf_mode f = zw_mode w -> en_kind (zrecord_entry f) = en_kind (ci_entry it)) ->
        zw_method w <> zip_lzma -> (en_kind (ci_entry it) = EkFile -> zw_method w = zip_store \/ zw_method w = zip_deflate) ->
        match en_kind (ci_entry it) with EkFile => ci_data it = zw_data w | EkSymlink => en_link (ci_entry it) = zw_data w | EkDir => True | _ => False end ->
        expects ((p, it) :: order) (zitems ms) /\ (forall m, In m ms -> zf_method (zm_file m) <> zip_lzma) /\ Forall (zm_ok A C fuel0 pol) ms /\ existsb zencrypted ms = false /\
        (forall m, In m ms -> zm_err m = EEof) /\ (forall m, In m ms -> zm_node m = NFile [] -> zm_via C fuel0 m <> None)).
      { intros w ws Hh Hname Hrest Hkind Hlz Hmeth Hdata. inversion Hh as [|w' m ws' ms' Hr Hh' E1 E2]. subst w' ws' ms. destruct Hr as (R1 & R2 & R3 & R4 & R5 & R6 & R7).
        destruct (Hrest _ Hh') as (comp' & Hh''). destruct (IH Hk' _ _ Hh'') as (I1 & I2 & I3 & I4 & I5 & I6).
        pose proof (Hkind (zm_file m) R2) as Hkm.
        split; [|split; [|split; [|split; [|split]]]].
        - change (zitems (m :: ms')) with ((zm_entry m, zm_node m) :: zitems ms'). apply expects_cons; auto.
          + unfold zm_entry. cbn [en_path zrecord_entry]. congruence.
          + unfold zm_node, zm_entry. rewrite Hkm. destruct (en_kind (ci_entry it)); try contradiction; try exact Logic.I; congruence.
        - intros x [<-|Hx]; [congruence|auto].
        - constructor; assumption.
        - cbn [existsb]. rewrite R4. exact I4.
        - intros x [<-|Hx]; [exact R6|auto].
        - intros x [<-|Hx]; [|auto]. intros Hn. unfold zm_node, zm_entry in Hn. unfold zm_via, zm_entry. rewrite Hkm in *.
          destruct (en_kind (ci_entry it)) eqn:Ek; try discriminate Hn; [|destruct (Hother _ eq_refl)].
          destruct (Hmeth eq_refl) as [Hm|Hm]; rewrite R3, Hm; vm_compute; discriminate. }
      destruct (en_kind (ci_entry it)) as [| | |z] eqn:Ek; [| | |destruct (Hother z eq_refl)].
      + eapply Hone; [exact H|exact Hpath|intros ms' Hx; exists comp; exact Hx| | | |exact Logic.I].
        * intros f Hf. unfold zrecord_entry. cbn [en_kind]. rewrite Hf. reflexivity.
        * discriminate.
        * intros Hq; discriminate Hq.
      + eapply Hone; [exact H|exact Hpath|intros ms' Hx; exists comp; exact Hx| | | |reflexivity].
        * intros f Hf. unfold zrecord_entry. cbn [en_kind]. rewrite Hf. reflexivity.
        * discriminate.
        * intros Hq; discriminate Hq.
      + eapply Hone; [exact H|exact Hpath|intros ms' Hx; exists (negb comp); exact Hx| | | |reflexivity].
        * intros f Hf. unfold zrecord_entry. cbn [en_kind]. rewrite Hf. reflexivity.
        * destruct comp; discriminate.
        * intros _. destruct comp; [right|left]; reflexivity.
  Qed.

  (** An archive made from any checker.Sink, in any iteration order, passes the
      test (C77), is extracted completely, and supports resuming in the middle of files. *)
  Theorem C80_zip_passes items order ms : well_keyed items -> Permutation items order -> zip_holds A C fuel0 pol (make_zip order true) ms ->
    (forall b, zip_new (zfiles ms) None b = Ok (zfiles ms, RsBlock)) /\ length (zitems ms) = length items /\
    exists B, forall SV io fuel left v,
      (forall k, ios_ok A pol ms (io k)) -> (forall k i, io_good (io k i)) -> saver_noerr SV -> (B < fuel)%nat ->
      match zip_again (checker_sink items) C fuel0 SV (zfiles ms) io fuel left 0 None cs_new v with
      | None => (left < zbytes ms)%nat /\ ~ saver_goes_on SV
      | Some (n, out) => (n <= zbytes ms)%nat /\ zo_res _ _ _ _ out = Ok (zlisting (zfiles ms)) /\ cs_validate items (zo_sink _ _ _ _ out) = None
      end.
  Proof.
    intros Hk Hp Hh. destruct (made_zip order true ms (well_keyed_perm _ _ Hk Hp) Hh) as (H1 & H2 & H3 & H4 & H5 & H6).
    split; [|split].
    - intros b. unfold zip_new. rewrite H6. reflexivity.
    - unfold zitems. rewrite map_length. rewrite (Permutation_length Hp). rewrite <- (F2_length _ _ _ Hh).
      clear - Hk Hp. pose proof (well_keyed_perm _ _ Hk Hp) as Ho. clear Hk Hp items. generalize true as comp.
      induction order as [|[p it] order IH]; intros comp; [reflexivity|]. destruct (well_keyed_cons _ _ _ Ho) as (Ho' & _ & _ & Hother).
      cbn [make_zip]. destruct (en_kind (ci_entry it)) as [| | |z]; [| | |destruct (Hother z eq_refl)]; cbn [length]; f_equal; exact (IH Ho' _).
    - exact (C77_zip_passes_partial A C fuel0 pol ms items H2 (expects_perm _ _ _ Hp H1) H5 (fun m Hm _ => H4 m Hm) H3).
  Qed.
End ZipMade.

(** Files are deflated and stored in turn. *)
Definition uses (m : Z) (ws : list zwrite) : nat := length (filter (fun w => (zw_method w =? m) && negb (Z.testbit (zw_mode w) 31) && negb (Z.testbit (zw_mode w) 27)) ws).
Theorem C80_zip_methods items order : Permutation items order ->
  let files := length (filter (fun x => match en_kind (ci_entry (snd x)) with EkFile => true | _ => false end) items) in
  uses zip_deflate (make_zip order true) = Nat.div2 (S files) /\ uses zip_store (make_zip order true) = Nat.div2 files.
Proof.
  intros Hp. cbv zeta.
  assert (E : length (filter (fun x : bytes * citem => match en_kind (ci_entry (snd x)) with EkFile => true | _ => false end) items) =
    length (filter (fun x : bytes * citem => match en_kind (ci_entry (snd x)) with EkFile => true | _ => false end) order)).
  { induction Hp as [|x l l' Hp IH|x y l|l l' l'' Hp1 IH1 Hp2 IH2]; [reflexivity| | |congruence]; cbn [filter].
    - destruct (match en_kind (ci_entry (snd x)) with EkFile => true | _ => false end); cbn [length]; congruence.
    - destruct (match en_kind (ci_entry (snd x)) with EkFile => true | _ => false end), (match en_kind (ci_entry (snd y)) with EkFile => true | _ => false end); reflexivity. }
  rewrite E. clear E Hp items.
  assert (G : forall comp, let n := length (filter (fun x : bytes * citem => match en_kind (ci_entry (snd x)) with EkFile => true | _ => false end) order) in
    uses zip_deflate (make_zip order comp) = Nat.div2 (if comp then S n else n) /\ uses zip_store (make_zip order comp) = Nat.div2 (if comp then n else S n)); [|exact (G true)].
  induction order as [|[p it] order IH]; intros comp; [destruct comp; split; reflexivity|]. cbn [make_zip filter snd].
  destruct (en_kind (ci_entry it)); [exact (IH comp)|exact (IH comp)| |exact (IH comp)].
  destruct (IH (negb comp)) as [I1 I2]. destruct comp; cbn [negb length] in *.
  - change (uses zip_deflate (MkZw (en_path (ci_entry it)) 420 zip_deflate (ci_data it) :: make_zip order false)) with (S (uses zip_deflate (make_zip order false))).
    change (uses zip_store (MkZw (en_path (ci_entry it)) 420 zip_deflate (ci_data it) :: make_zip order false)) with (uses zip_store (make_zip order false)).
    rewrite I1, I2. split; reflexivity.
  - change (uses zip_store (MkZw (en_path (ci_entry it)) 420 zip_store (ci_data it) :: make_zip order true)) with (S (uses zip_store (make_zip order true))).
    change (uses zip_deflate (MkZw (en_path (ci_entry it)) 420 zip_store (ci_data it) :: make_zip order true)) with (uses zip_deflate (make_zip order true)).
    rewrite I1, I2. split; reflexivity.
Qed.

Section TarMade.
  Context (F : tfmt) (N : nat) (D : bytes).

  Lemma made_tar : forall order ms, well_keyed order -> Forall2 tar_reads (make_tar order) ms -> expects order (titems ms).
  Proof.
    induction order as [|[p it] order IH]; intros ms Hk H; cbn [make_tar] in H.
    - inversion H. exact expects_nil.
    - destruct (well_keyed_cons _ _ _ Hk) as (Hk' & Hpath & Hnew & Hother).
      destruct (en_kind (ci_entry it)) as [| | |z] eqn:Ek; [| | |destruct (Hother z eq_refl)];
        inversion H as [|w' m ws' ms' (R1 & R2 & R3 & R4 & R5 & R6) Hh' E1 E2]; subst w' ws' ms; cbn [tw_name tw_type tw_size tw_mode tw_link tw_data] in *;
        unfold titems; cbn [flat_map]; unfold tm_item at 1, tm_entry, tm_node; rewrite R2; cbn [app];
        (apply expects_cons; [exact (IH ms' Hk' Hh')|exact Hpath|exact Hnew|cbn [en_path th_entry]; congruence|exact Ek|]); auto.
  Qed.

  (** Through any stack of sources that decodes to the tar stream. *)
  Theorem C80_tar_passes items order ms pol data start size k : well_keyed items -> Permutation items order -> tar_holds F N D (make_tar order) ms ->
    (exists b byt p, stk_den pol data start size k D EEof b byt p false) ->
    length (titems ms) = length items /\
    exists B, forall (SV : saver (s_ck (stk_source k)) tstate) rs fuel left v,
      (forall j, rs_ok pol data (rs j)) -> (forall j, rs_good (rs j)) -> saver_noerr SV -> (B < fuel)%nat ->
      match tar_again (checker_sink items) F (stk_source k) SV (fun j => tsrc start size k (rs j)) fuel left 0 None cs_new v with
      | None => (left < length D)%nat /\ ~ saver_goes_on SV
      | Some (n, out) => (n <= length D)%nat /\ (exists l, to_res _ _ _ out = Ok l) /\ cs_validate items (to_sink _ _ _ out) = None
      end.
  Proof.
    intros Hk Hp [Hl Hh] Hden. pose proof (made_tar order ms (well_keyed_perm _ _ Hk Hp) Hh) as HE. split.
    - rewrite (Permutation_length Hp). clear - HE Hk Hp Hh. pose proof (well_keyed_perm _ _ Hk Hp) as Ho. clear Hk Hp HE items. revert ms Hh.
      induction order as [|[p it] order IH]; intros ms Hh; cbn [make_tar] in Hh; [inversion Hh; reflexivity|].
      destruct (well_keyed_cons _ _ _ Ho) as (Ho' & _ & _ & Hother).
      destruct (en_kind (ci_entry it)) as [| | |z]; [| | |destruct (Hother z eq_refl)];
        inversion Hh as [|w' m ws' ms' (R1 & R2 & R3) Hh' E1 E2]; subst w' ws' ms; cbn [tw_type] in *;
        unfold titems; cbn [flat_map]; unfold tm_item at 1, tm_entry; rewrite R2; exact (f_equal S (IH Ho' ms' Hh')).
    - exact (C77_tar_passes pol data start size k D EEof F N ms true items Hden Hl (expects_perm _ _ _ Hp HE) eq_refl eq_refl).
  Qed.
End TarMade.

(** ** Concrete cases *)
(** Random numbers from a list; the sizes are small. *)
Definition eg_intn (r : list Z) (n : Z) : list Z * Z := (tl r, Z.modulo (hd 0 r) n).
Lemma eg_range : in_range eg_intn.
Proof. intros r n Hn. apply Z.mod_pos_bound. exact Hn. Qed.
Definition eg_make := make_test_sink (list Z) eg_intn eg_intn Z ex_intn 0 50 4 [5; 50; 10; 50; 50; 0; 50; 50; 3].
Definition eg_data : bytes := match sr_bytes Z ex_intn 50 0 3 with Ok d => d | _ => [] end.
Definition eg_item (p : bytes) (kd : ekind) (sz : Z) (link data : bytes) : bytes * citem := (p, MkCitem (MkEntry p kd 0 0 sz 0 link) data).
Definition eg_items := [eg_item (s2b "symlink-0") EkDir 0 (s2b "target-0") []; eg_item (s2b "dir-1") EkDir 0 [] [];
  eg_item (s2b "file-2") EkFile 0 [] []; eg_item (s2b "file-3") EkFile 3 [] eg_data].
Example C80_example_make : eg_make = Ok eg_items /\ length eg_data = 3%nat.
Proof. split; vm_compute; reflexivity. Qed.
(** some other order *)
Definition eg_order := [eg_item (s2b "file-2") EkFile 0 [] []; eg_item (s2b "dir-1") EkDir 0 [] []; eg_item (s2b "file-3") EkFile 3 [] eg_data; eg_item (s2b "symlink-0") EkDir 0 (s2b "target-0") []].
Lemma eg_perm : Permutation eg_items eg_order.
Proof.
  apply NoDup_Permutation.
  - apply (NoDup_map_inv fst). change (map fst eg_items) with [s2b "symlink-0"; s2b "dir-1"; s2b "file-2"; s2b "file-3"]. nodup.
  - apply (NoDup_map_inv fst). change (map fst eg_order) with [s2b "file-2"; s2b "dir-1"; s2b "file-3"; s2b "symlink-0"]. nodup.
  - intros x. unfold eg_items, eg_order. cbn [In]. tauto.
Qed.

Lemma eg_keyed : well_keyed eg_items.
Proof. destruct (C80_test_sink (list Z) eg_intn eg_intn Z ex_intn 0 50 eg_range 4 _ eg_items (proj1 C80_example_make)) as (_ & H & _). exact H. Qed.

(** the zip archive *)
Definition eg_A : bytes := s2b "HE" ++ eg_data.
Definition eg_ms : list zmember := [
  MkZm (MkZf (s2b "file-2") 2 0 420 8 8) 0 [] EEof;
  MkZm (MkZf (s2b "dir-1") 0 0 (2 ^ 31 + 493) 0 0) 0 [] EEof;
  MkZm (MkZf (s2b "file-3") 3 3 420 8 0) 2 eg_data EEof;
  MkZm (MkZf (s2b "symlink-0") 0 0 (2 ^ 31 + 493) 0 0) 0 [] EEof].
Lemma eg_zip : zip_holds eg_A exC exF false (make_zip eg_order true) eg_ms.
Proof.
  unfold eg_ms. constructor; [|constructor; [|constructor; [|constructor; [|constructor]]]]; (split; [reflexivity|]; split; [reflexivity|]; split; [reflexivity|]; split; [reflexivity|]; split; [reflexivity|]; split; [reflexivity|]).
  - change (exists b byt p, stk_den false (s2b "HE") 0 2 (KDec exC flate_cfg exF KSeek) [] EEof b byt p false). exists (30 + 0)%nat, true, true.
    refine (DenDec false (s2b "HE") 0 2 exC flate_cfg 100 KSeek (s2b "HE") EEof 2 false false 30 [] EEof true _ _ _ _ _ _ _ _ _); try reflexivity; try discriminate; try lia.
    + exact (DenSeek false (s2b "HE") 0 2 ltac:(lia) ltac:(lia) ltac:(unfold two63; lia)).
    + apply ex_saves_ok.
    + right. vm_compute. splits; try discriminate; exact Logic.I.
    + intros _. split; [reflexivity|]. vm_compute. splits; try reflexivity; exact Logic.I.
  - exact Logic.I.
  - change (exists b byt p, stk_den false (slice eg_A 2 3) 0 3 KSeek eg_data EEof b byt p false). 
    assert (E : slice eg_A 2 3 = eg_data) by (vm_compute; reflexivity). rewrite E. exists 3%nat, true, false.
    exact (DenSeek false eg_data 0 3 ltac:(lia) ltac:(lia) ltac:(unfold two63; lia)).
  - exact Logic.I.
Qed.
Definition eg_io : nat -> zio := fun i =>
  let m := nth i eg_ms ex_m0 in
  MkZio (Ok (zm_off m)) (fun off n => MkRs (slice eg_A (Z.to_nat off) (Z.to_nat n)) 0 [] []) (Ok ([zm_data m], None)).
Lemma eg_ios : ios_ok eg_A false eg_ms eg_io.
Proof.
  intros i m Hm. unfold eg_io. rewrite (nth_error_nth _ _ _ Hm). split; [|split]; cbn.
  - reflexivity.
  - intros off n. split; [reflexivity|]. intros H; discriminate.
  - apply app_nil_r.
Qed.
Example C80_zip_example : exists B, forall fuel left, (B < fuel)%nat ->
  match zip_again (checker_sink eg_items) exC exF stopper (zfiles eg_ms) (fun _ => eg_io) fuel left 0 None cs_new 0%nat with
  | None => (left < zbytes eg_ms)%nat
  | Some (n, out) => (n <= zbytes eg_ms)%nat /\ cs_validate eg_items (zo_sink _ _ _ _ out) = None
  end.
Proof.
  destruct (C80_zip_passes eg_A exC exF false eg_items eg_order eg_ms eg_keyed eg_perm eg_zip) as (_ & _ & B & H).
  exists B. intros fuel left Hf.
  assert (Hg : forall k i : nat, io_good (eg_io i)) by (intros _ i; split; [|split]; cbn; eauto; intros; split; cbn; auto).
  specialize (H stopper (fun _ => eg_io) fuel left 0%nat (fun _ => eg_ios) Hg stopper_noerr Hf).
  destruct (zip_again _ _ _ _ _ _ _ _ _ _ _ _) as [[n out]|]; [exact (conj (proj1 H) (proj2 (proj2 H)))|exact (proj1 H)].
Qed.
Example C80_zip_example_run : option_map (fun r => (fst r, cs_validate eg_items (zo_sink (checker_sink eg_items) exC exF stopper (snd r))))
  (zip_again (checker_sink eg_items) exC exF stopper (zfiles eg_ms) (fun _ => eg_io) 50 100 0 None cs_new 0%nat) = Some (0%nat, None).
Proof. vm_compute. reflexivity. Qed.

(** the tar archive: a format with one-byte headers *)
Inductive egst := EgPad (n : nat) | EgHdr | EgGot (d : bytes).
Definition eg_hdr (b : byte) : tstep egst :=
  if beqb b "f"%char then TsHdr (MkTh (s2b "file-2") 0 420 TfReg [] 0 0)
  else if beqb b "d"%char then TsHdr (MkTh (s2b "dir-1") 0 493 TfDir [] 0 0)
  else if beqb b "g"%char then TsHdr (MkTh (s2b "file-3") 3 420 TfReg [] 3 1)
  else if beqb b "s"%char then TsHdr (MkTh (s2b "symlink-0") 0 493 TfDir [] 0 0)
  else if beqb b "e"%char then TsFail EEof else TsFail ECorrupt.
Definition eg_fmt : tfmt := {|
  tf_st := egst; tf_init := EgPad;
  tf_step := fun s => match s with
    | EgPad n => TsNeed n (fun _ => EgHdr)
    | EgHdr => TsNeed 1 EgGot
    | EgGot d => match d with b :: _ => eg_hdr b | [] => TsFail EUnexpectedEof end
    end;
  tf_eager := false |}.
Definition eg_D : bytes := s2b "fdg" ++ eg_data ++ s2b "pse".
Definition eg_tms : list tmember := [
  MkTm (MkTh (s2b "file-2") 0 420 TfReg [] 0 0) 1 (slice eg_D 1 0);
  MkTm (MkTh (s2b "dir-1") 0 493 TfDir [] 0 0) 2 (slice eg_D 2 0);
  MkTm (MkTh (s2b "file-3") 3 420 TfReg [] 3 1) 3 (slice eg_D 3 3);
  MkTm (MkTh (s2b "symlink-0") 0 493 TfDir [] 0 0) 8 (slice eg_D 8 0)].
Lemma eg_tar : tar_holds eg_fmt 5 eg_D (make_tar eg_order) eg_tms.
Proof.
  split.
  - unfold eg_tms.
    apply (TlMem eg_fmt eg_D EEof 5 0 0 (MkTh (s2b "file-2") 0 420 TfReg [] 0 0) 1); [vm_compute; reflexivity|apply Nat.leb_le; vm_compute; reflexivity|].
    apply (TlMem eg_fmt eg_D EEof 5 1 0 (MkTh (s2b "dir-1") 0 493 TfDir [] 0 0) 2); [vm_compute; reflexivity|apply Nat.leb_le; vm_compute; reflexivity|].
    apply (TlMem eg_fmt eg_D EEof 5 2 0 (MkTh (s2b "file-3") 3 420 TfReg [] 3 1) 3); [vm_compute; reflexivity|apply Nat.leb_le; vm_compute; reflexivity|].
    apply (TlMem eg_fmt eg_D EEof 5 6 1 (MkTh (s2b "symlink-0") 0 493 TfDir [] 0 0) 8); [vm_compute; reflexivity|apply Nat.leb_le; vm_compute; reflexivity|].
    apply (TlEnd eg_fmt eg_D EEof 5 8 0 9). vm_compute. reflexivity.
  - unfold eg_tms. constructor; [|constructor; [|constructor; [|constructor; [|constructor]]]]; (split; [reflexivity|]; split; [reflexivity|]; split; [reflexivity|]; split; [reflexivity|]; split; [reflexivity|]); vm_compute; reflexivity.
Qed.
Example C80_tar_example : exists B, forall fuel left, (B < fuel)%nat ->
  match tar_again (checker_sink eg_items) eg_fmt (stk_source KSeek) stopper (fun _ => tsrc 0 9 KSeek (MkRs eg_D 0 [] [])) fuel left 0 None cs_new 0%nat with
  | None => (left < length eg_D)%nat
  | Some (n, out) => (n <= length eg_D)%nat /\ cs_validate eg_items (to_sink _ _ _ out) = None
  end.
Proof.
  destruct (C80_tar_passes eg_fmt 5 eg_D eg_items eg_order eg_tms false eg_D 0 9 KSeek eg_keyed eg_perm eg_tar) as (_ & B & H).
  { eexists _, _, _. assert (E : eg_D = slice eg_D (Z.to_nat 0) (Z.to_nat 9)) by (vm_compute; reflexivity). rewrite E at 2.
    apply (DenSeek false eg_D 0 9); try lia. unfold two63; lia. }
  exists B. intros fuel left Hf.
  assert (H1 : rs_ok false eg_D (MkRs eg_D 0 [] [])) by (split; [reflexivity|]; intros Hx; discriminate).
  assert (H2 : rs_good (MkRs eg_D 0 [] [])) by (split; cbn; auto).
  specialize (H stopper (fun _ => MkRs eg_D 0 [] []) fuel left 0%nat (fun _ => H1) (fun _ => H2) stopper_noerr Hf).
  destruct (tar_again _ _ _ _ _ _ _ _ _ _ _) as [[n out]|]; [exact (conj (proj1 H) (proj2 (proj2 H)))|exact (proj1 H)].
Qed.
Example C80_tar_example_run : option_map (fun r => cs_validate eg_items (to_sink (checker_sink eg_items) (stk_source KSeek) stopper (snd r)))
  (tar_again (checker_sink eg_items) eg_fmt (stk_source KSeek) stopper (fun _ => tsrc 0 9 KSeek (MkRs eg_D 0 [] [])) 50 100 0 None cs_new 0%nat) = Some None.
Proof. vm_compute. reflexivity. Qed.
Example C80_methods_example : uses zip_deflate (make_zip eg_order true) = 1%nat /\ uses zip_store (make_zip eg_order true) = 1%nat.
Proof. split; vm_compute; reflexivity. Qed.
