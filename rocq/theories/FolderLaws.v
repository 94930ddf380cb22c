(** FolderLaws.v -- FolderSink is a store (in the sense of SinkSpec) for every
    set of entries that a folder can hold. *)
From Verif Require Import Base Base_proofs Path PathSpec Path_proofs Source Sink SinkSpec FS FS_proofs FolderSink FSteps_proofs FSLex_proofs FolderSpec Folder_proofs.

(** ** Specification *)

(** what is found at a location, as a [node] *)
Definition node_at (s : fsys) (l : loc) : option node :=
  match f_tree s l with
  | None => None
  | Some (FDir _) => Some NDir
  | Some (FLink t) => Some (NLink t)
  | Some (FFile i) => Some (NFile (i_data (f_ino s i)))
  end.
(** ... and what would be found there after a power loss *)
Definition durable_at (s : fsys) (l : loc) : option node :=
  match f_tree s l with
  | None => None
  | Some (FDir _) => Some NDir
  | Some (FLink t) => Some (NLink t)
  | Some (FFile i) => Some (NFile (i_dur (f_ino s i)))
  end.
Definition kind_fits (k : ekind) (n : fnode) : Prop :=
  match k, n with
  | EkDir, FDir _ | EkSymlink, FLink _ | EkFile, FFile _ => True
  | _, _ => False
  end.
Definition above (q l : loc) : Prop := at_or_below q l /\ q <> l.

(** A folder can hold the entries [S]: none lies outside Directory, two at the same
    place have the same kind, and only folders have other entries below them. *)
Record holdable (c : fcfg) (S : entry -> Prop) : Prop := {
  ho_in : forall e, S e -> should_ignore (en_path e) = false -> at_or_below (fbase c) (eloc c e);
  ho_same : forall e e', S e -> S e' -> should_ignore (en_path e) = false -> should_ignore (en_path e') = false -> eloc c e = eloc c e' -> en_kind e = en_kind e';
  ho_above : forall e e', S e -> S e' -> should_ignore (en_path e) = false -> should_ignore (en_path e') = false -> above (eloc c e') (eloc c e) -> en_kind e' = EkDir }.

(** The destination is ready for the entries [S]: what is at their locations (if anything) is of
    their kind, what is above is a folder; inodes are not shared. *)
Record ready (c : fcfg) (S : entry -> Prop) (k : fsink) : Prop := {
  rd_root : exists m, f_tree (fk_fs k) [] = Some (FDir m);
  rd_tree : forall l q, f_tree (fk_fs k) l <> None -> above q l -> exists m, f_tree (fk_fs k) q = Some (FDir m);
  rd_at : forall e n, S e -> should_ignore (en_path e) = false -> f_tree (fk_fs k) (eloc c e) = Some n -> kind_fits (en_kind e) n;
  rd_above : forall e q n, S e -> should_ignore (en_path e) = false -> above q (eloc c e) -> f_tree (fk_fs k) q = Some n -> exists m, n = FDir m;
  rd_ino : forall l i, f_tree (fk_fs k) l = Some (FFile i) -> (i < f_next (fk_fs k))%nat;
  rd_hard : forall l l' i, f_tree (fk_fs k) l = Some (FFile i) -> f_tree (fk_fs k) l' = Some (FFile i) -> l = l';
  rd_hand : forall j, (f_nexth (fk_fs k) <= j)%nat -> f_hand (fk_fs k) j = None;
  rd_ws : forall w h, fk_ws k w = Some (Some h) -> (h < f_nexth (fk_fs k))%nat }.

(** ** Proofs *)
Section FL.
  Context (c : fcfg) (S : entry -> Prop).
  Hypothesis (Hwd : is_abs (fc_wd c) = true) (Hb : fbase c <> []) (HS : holdable c S).

  Definition fvalid (e : entry) : Prop := exists e0, S e0 /\ en_path e0 = en_path e /\ en_kind e0 = en_kind e.
  Definition fof (e : entry) : option loc := if should_ignore (en_path e) then None else Some (eloc c e).

  Lemma eloc_path e e' : en_path e = en_path e' -> eloc c e = eloc c e'.
  Proof. unfold eloc. intros ->. reflexivity. Qed.

  Lemma fof_some e l : fof e = Some l -> should_ignore (en_path e) = false /\ l = eloc c e.
  Proof. unfold fof. destruct (should_ignore _); [discriminate|]. intros H. injection H as <-. auto. Qed.

  Lemma valid_in e l : fvalid e -> fof e = Some l -> at_or_below (fbase c) l.
  Proof.
    intros (e0 & H0 & Hp & Hk) Hf. apply fof_some in Hf. destruct Hf as [Hi ->]. rewrite <- Hp in Hi.
    rewrite <- (eloc_path _ _ Hp). apply (ho_in c S HS e0 H0 Hi).
  Qed.
  Lemma valid_same e e' l : fvalid e -> fvalid e' -> fof e = Some l -> fof e' = Some l -> en_kind e = en_kind e'.
  Proof.
    intros (e0 & H0 & Hp & Hk) (e1 & H1 & Hp1 & Hk1) Hf Hf1. apply fof_some in Hf, Hf1. destruct Hf as [Hi ->], Hf1 as [Hi1 Hl].
    rewrite <- Hk, <- Hk1. apply (ho_same c S HS); try congruence. rewrite (eloc_path _ _ Hp), (eloc_path _ _ Hp1). exact Hl.
  Qed.
  Lemma valid_above e e' l l' : fvalid e -> fvalid e' -> fof e = Some l -> fof e' = Some l' -> above l' l -> en_kind e' = EkDir.
  Proof.
    intros (e0 & H0 & Hp & Hk) (e1 & H1 & Hp1 & Hk1) Hf Hf1 Ha. apply fof_some in Hf, Hf1. destruct Hf as [Hi ->], Hf1 as [Hi1 ->].
    rewrite <- Hk1. apply (ho_above c S HS e0 e1); try congruence. rewrite (eloc_path _ _ Hp), (eloc_path _ _ Hp1). exact Ha.
  Qed.

  (** the part of [ready] about the tree *)
  Record tinv (s : fsys) : Prop := {
    ti_root : rooted s;
    ti_par : parcl s;
    ti_at : forall e l n, fvalid e -> fof e = Some l -> f_tree s l = Some n -> kind_fits (en_kind e) n;
    ti_above : forall e l, fvalid e -> fof e = Some l -> passable s l;
    ti_ino : forall l i, f_tree s l = Some (FFile i) -> (i < f_next s)%nat;
    ti_hard : forall l l' i, f_tree s l = Some (FFile i) -> f_tree s l' = Some (FFile i) -> l = l' }.
  Definition hinv (s : fsys) : Prop := forall j, (f_nexth s <= j)%nat -> f_hand s j = None.
  Definition winv (k : fsink) : Prop := forall w h, fk_ws k w = Some (Some h) -> (h < f_nexth (fk_fs k))%nat.
  Definition finv (k : fsink) : Prop := tinv (fk_fs k) /\ hinv (fk_fs k) /\ winv k.

  Lemma ready_finv k : ready c S k <-> finv k.
  Proof.
    split.
    - intros [A1 A2 A3 A4 A5 A6 A7 A8]. unfold finv. splits; auto. constructor; auto.
      + intros l Hl q Hq Hne. apply (A2 l q Hl). split; assumption.
      + intros e l n (e0 & H0 & Hp & Hk) Hf Ht. apply fof_some in Hf. destruct Hf as [Hi ->]. rewrite <- Hk. apply (A3 e0); auto; [congruence|].
        rewrite (eloc_path _ _ Hp). exact Ht.
      + intros e l (e0 & H0 & Hp & Hk) Hf q n Hq Hne Ht. apply fof_some in Hf. destruct Hf as [Hi ->]. apply (A4 e0 q n); auto; [congruence|].
        rewrite (eloc_path _ _ Hp). split; assumption.
    - intros ([A1 A2 A3 A4 A5 A6] & B & C). constructor; auto.
      + intros l q Hl [Hq Hne]. exact (A2 l Hl q Hq Hne).
      + intros e n He Hi Ht. apply (A3 e (eloc c e)); auto; [exists e; auto|]. unfold fof. rewrite Hi. reflexivity.
      + intros e q n He Hi [Hq Hne] Ht. apply (A4 e (eloc c e)) with (q := q); auto; [exists e; auto|]. unfold fof. rewrite Hi. reflexivity.
  Qed.

  Lemma tinv_same s s' : f_tree s' = f_tree s -> f_next s' = f_next s -> tinv s -> tinv s'.
  Proof.
    intros H1 H2 [A1 A2 A3 A4 A5 A6]. constructor; unfold rooted, parcl, alldirs, passable in *; rewrite ?H1, ?H2; auto.
  Qed.
  Lemma valid_dest e l : fvalid e -> fof e = Some l ->
    dest_path (fc_wd c) (fc_dir c) (en_path e) = Ok (render l) /\ Forall normal l /\ l <> [].
  Proof.
    intros Hv Hf. pose proof (valid_in e l Hv Hf) as Hin. apply fof_some in Hf. destruct Hf as [Hi ->].
    rewrite (dest_path_spec (fc_wd c) (fc_dir c) (en_path e) Hwd Hb). cbv zeta.
    change (walk (base_loc (fc_wd c) (fc_dir c)) (split_slash (en_path e))) with (eloc c e).
    change (base_loc (fc_wd c) (fc_dir c)) with (fbase c).
    rewrite (proj2 (at_or_belowb_spec _ _) Hin). splits; [reflexivity| |].
    - apply walk_normal; [apply base_loc_normal|apply split_slash_no_slash].
    - intros E. rewrite E in Hin. apply below_len in Hin. destruct (fbase c); [congruence|cbn in Hin; lia].
  Qed.

  Lemma fits_file s e l : tinv s -> fvalid e -> fof e = Some l -> en_kind e = EkFile -> f_tree s l = None \/ exists i, f_tree s l = Some (FFile i).
  Proof.
    intros HI Hv Hf Hk. destruct (f_tree s l) as [n|] eqn:E; [|left; reflexivity]. right.
    pose proof (ti_at s HI e l n Hv Hf E) as H. rewrite Hk in H. destruct n; try contradiction. eauto.
  Qed.

  Lemma tinv_created s s' e l : tinv s -> fvalid e -> fof e = Some l -> en_kind e = EkFile -> created l s s' -> tinv s'.
  Proof.
    intros HI Hv Hf Hk HC. destruct (valid_dest e l Hv Hf) as (_ & _ & Hne).
    assert (Hnew : f_tree s' l = None \/ exists i, f_tree s' l = Some (FFile i) /\ (f_tree s l = Some (FFile i) /\ (i < f_next s)%nat \/ i = f_next s /\ f_next s' = Datatypes.S i)).
    { destruct (cr_node _ _ _ HC) as [H|[_ [H|H]]]; [| |].
      - rewrite H. destruct (fits_file s e l HI Hv Hf Hk) as [H'|[i H']]; [auto|right; exists i]. split; [exact H'|left]. split; [exact H'|].
        eapply ti_ino; eauto.
      - auto.
      - right. exists (f_next s). split; [exact H|right]. split; [reflexivity|]. destruct (cr_fresh _ _ _ HC H) as [H'|H']; [exact H'|].
        apply (ti_ino s HI) in H'. lia. }
    assert (Hmono : (f_next s <= f_next s')%nat) by (destruct (cr_next _ _ _ HC) as [H|[H _]]; lia).
    constructor.
    - exact (cr_rooted _ _ _ HC).
    - exact (cr_parcl _ _ _ HC).
    - intros e' q n Hv' Hf' Ht. destruct (loc_dec q l) as [->|Hq].
      + rewrite (valid_same e' e l Hv' Hv Hf' Hf), Hk. destruct Hnew as [H|(i & H & _)]; rewrite H in Ht; [discriminate|]. injection Ht as <-. exact Logic.I.
      + destruct (cr_frame _ _ _ HC q Hq) as [H|(H1 & H2 & m & H3)].
        * eapply (ti_at s HI); eauto. congruence.
        * rewrite (valid_above e e' l q Hv Hv' Hf Hf' (conj H1 Hq)). rewrite H3 in Ht. injection Ht as <-. exact Logic.I.
    - intros e' l' Hv' Hf' q n Hq Hq' Ht. destruct (loc_dec q l) as [->|Hql].
      + exfalso. assert (HD : en_kind e = EkDir) by (eapply (valid_above e' e); eauto; split; auto). congruence.
      + destruct (cr_frame _ _ _ HC q Hql) as [H|(H1 & H2 & m & H3)].
        * apply (ti_above s HI e' l' Hv' Hf' q n Hq Hq'). congruence.
        * exists m. congruence.
    - intros q i Ht. destruct (loc_dec q l) as [->|Hql].
      + destruct Hnew as [H|(i' & H & [[_ H']|[H' H'']])]; rewrite H in Ht; [discriminate| |]; injection Ht as <-; lia.
      + destruct (cr_frame _ _ _ HC q Hql) as [H|(H1 & H2 & m & H3)]; [|congruence]. rewrite H in Ht. apply (ti_ino s HI) in Ht. lia.
    - assert (Hold : forall q i, q <> l -> f_tree s' q = Some (FFile i) -> f_tree s q = Some (FFile i)).
      { intros q i Hql Ht. destruct (cr_frame _ _ _ HC q Hql) as [H|(H1 & H2 & m & H3)]; congruence. }
      assert (Hx : forall q i, q <> l -> f_tree s' q = Some (FFile i) -> f_tree s' l = Some (FFile i) -> False).
      { intros q i Hql Ht Hl. apply Hold in Ht; [|exact Hql]. destruct Hnew as [H|(i' & H & [[H' _]|[H' H'']])]; rewrite H in Hl; [discriminate| |]; injection Hl as <-.
        - apply Hql. eapply (ti_hard s HI); eauto.
        - apply (ti_ino s HI) in Ht. lia. }
      intros q q' i H1 H2. destruct (loc_dec q l) as [->|Hq], (loc_dec q' l) as [->|Hq']; auto.
      + exfalso. eapply Hx; eauto.
      + exfalso. eapply Hx; eauto.
      + eapply (ti_hard s HI); eauto.
  Qed.
  Lemma hinv_created s s' l : hinv s -> created l s s' -> hinv s'.
  Proof.
    intros H HC j Hj. destruct (cr_handn _ _ _ HC) as [H1 H2]. rewrite H2 by exact Hj. apply H. lia.
  Qed.

  Definition fview (k : fsink) : loc -> option node := node_at (fk_fs k).
  Definition framed (s s' : fsys) (l : loc) : Prop := forall q, q <> l -> node_at s' q = node_at s q \/ (above q l /\ node_at s q = None /\ node_at s' q = Some NDir).

  Lemma created_framed s s' l : tinv s -> created l s s' -> framed s s' l.
  Proof.
    intros HI HC q Hq. destruct (cr_frame _ _ _ HC q Hq) as [H|(H1 & H2 & m & H3)]; unfold node_at.
    - left. rewrite H. destruct (f_tree s q) as [[| |i]|] eqn:E; try reflexivity. destruct (cr_data _ _ _ HC i) as [-> _]; [|reflexivity].
      eapply ti_ino; eauto.
    - right. rewrite H2, H3. splits; auto. split; assumption.
  Qed.
  (** changing the data of the file at l *)
  Lemma others_framed s s1 s' l h i : framed s s1 l -> (forall q, f_tree s1 q = Some (FFile i) -> q = l) -> others s1 s' h i -> framed s s' l.
  Proof.
    intros HF HI (O1 & O2 & _) q Hq. assert (E : node_at s' q = node_at s1 q).
    { unfold node_at. rewrite O1. destruct (f_tree s1 q) as [[| |j]|] eqn:E; try reflexivity. rewrite O2; [reflexivity|]. intros ->. apply Hq, HI, E. }
    rewrite E. apply HF. exact Hq.
  Qed.
  Lemma node_at_same s s' : f_tree s' = f_tree s -> f_ino s' = f_ino s -> forall q, node_at s' q = node_at s q.
  Proof. intros H1 H2 q. unfold node_at. rewrite H1, H2. reflexivity. Qed.

  Lemma finv_fs k s : finv k -> tinv s -> hinv s -> (f_nexth (fk_fs k) <= f_nexth s)%nat -> finv (set_fs k s).
  Proof. intros (_ & _ & HW) HT HH Hle. unfold finv. splits; auto. intros w h Hw. cbn in *. apply HW in Hw. lia. Qed.

  Lemma tinv_grown s s' l : tinv s -> grown l s s' -> (forall e' q, fvalid e' -> fof e' = Some q -> at_or_below q l -> en_kind e' = EkDir) -> tinv s'.
  Proof.
    intros HI HG Hdir. pose proof HG as [[HK HP] HT]. pose proof HK as (_ & KN & _).
    assert (Hold : forall q i, f_tree s' q = Some (FFile i) -> f_tree s q = Some (FFile i)).
    { intros q i Ht. destruct (HT q) as [H|(_ & _ & m & H)]; congruence. }
    constructor.
    - eapply grown_rooted; [exact HG|apply HI].
    - apply HP, HI.
    - intros e q n Hv Hf Ht. destruct (HT q) as [H|(H1 & _ & m & H)].
      + eapply (ti_at s HI); eauto. congruence.
      + rewrite (Hdir e q Hv Hf H1). rewrite H in Ht. injection Ht as <-. exact Logic.I.
    - intros e q Hv Hf. eapply grown_passable; [exact HG|]. eapply ti_above; eauto.
    - intros q i Ht. rewrite KN. eapply (ti_ino s HI). apply Hold. exact Ht.
    - intros q q' i H1 H2. eapply (ti_hard s HI); apply Hold; eassumption.
  Qed.
  Lemma grown_framed s s' l l0 : grown l0 s s' -> at_or_below l0 l -> framed s s' l.
  Proof.
    intros HG Hl q Hq. pose proof HG as [[HK _] HT]. unfold node_at. destruct (HT q) as [H|(H1 & H2 & m & H3)].
    - left. rewrite H, (proj1 HK). reflexivity.
    - right. rewrite H2, H3. splits; auto. split; [eapply below_trans; eassumption|exact Hq].
  Qed.

  Definition fframe (k k' : fsink) (o : option loc) : Prop :=
    forall l', o <> Some l' -> fview k' l' = fview k l' \/ exists l, o = Some l /\ above l' l /\ fview k l' = None /\ fview k' l' = Some NDir.
  Definition fparents (k : fsink) (l : loc) : Prop := forall l', above l' l -> fview k l' = Some NDir.
  Lemma fframe_framed k k' l : framed (fk_fs k) (fk_fs k') l -> fframe k k' (Some l).
  Proof. intros H q Hq. destruct (H q) as [E|E]; [congruence|left; exact E|right; exists l; splits; auto; apply E]. Qed.
  Lemma fframe_same k k' o : (forall q, fview k' q = fview k q) -> fframe k k' o.
  Proof. intros H q _. left. apply H. Qed.
  Lemma alldirs_parents k l : alldirs (fk_fs k) l -> fparents k l.
  Proof. intros H q [H1 H2]. destruct (H q H1 H2) as [m Hm]. unfold fview, node_at. rewrite Hm. reflexivity. Qed.

  Lemma hinv_keeps s s' : keeps s s' -> hinv s -> hinv s'.
  Proof. intros (_ & _ & H1 & H2 & _) H j. rewrite H1, H2. apply H. Qed.
  Lemma finv_keeps k s : finv k -> tinv s -> keeps (fk_fs k) s -> finv (set_fs k s).
  Proof. intros H HT HK. apply finv_fs; [exact H|exact HT|eapply hinv_keeps; [exact HK|apply H]|]. destruct HK as (_ & _ & _ & -> & _). lia. Qed.

  Lemma fl_mkdir k e k' r : finv k -> fvalid e -> en_kind e = EkDir -> fk_mkdir c k e = (k', r) ->
    finv k' /\ fframe k k' (fof e) /\ (clean (fk_fs k) -> clean (fk_fs k') /\ r = None) /\
    (forall l, fof e = Some l -> fview k l = Some NDir -> fview k' l = Some NDir) /\
    (r = None -> forall l, fof e = Some l -> fview k' l = Some NDir /\ fparents k' l).
  Proof.
    intros HI Hv Hk. unfold fk_mkdir. destruct (should_ignore (en_path e)) eqn:Ei.
    { intros E. injection E as <- <-. unfold fof. rewrite Ei. splits; auto; [apply fframe_same; reflexivity|discriminate]. }
    assert (Hf : fof e = Some (eloc c e)) by (unfold fof; rewrite Ei; reflexivity). set (l := eloc c e) in *.
    destruct (valid_dest e l Hv Hf) as (Hd & Hn & Hne). rewrite Hd.
    pose proof (proj1 HI) as HT. pose proof (ti_above _ HT e l Hv Hf) as Hpa.
    destruct (os_lstat (fk_fs k) (render l)) as [s1 st] eqn:E1. apply os_lstat_lex in E1; auto using passable_nolink; [|apply HT].
    destruct E1 as (Q1 & S1 & S2 & S3 & S4).
    assert (HT1 : tinv s1) by (eapply tinv_same; [apply Q1|apply Q1|exact HT]).
    assert (Hdl : forall n, f_tree (fk_fs k) l = Some n -> exists m, n = FDir m).
    { intros n E. pose proof (ti_at _ HT e l n Hv Hf E) as H. rewrite Hk in H. destruct n; try contradiction. eauto. }
    destruct (match st with Ok _ => true | _ => false end) eqn:Es.
    - destruct st as [n| | |]; try discriminate. destruct (S1 n eq_refl) as [E1 Ha]. destruct (Hdl n E1) as [m ->]. cbn [is_dir].
      intros E. injection E as <- <-. rewrite Hf.
      assert (Hvw : forall q, fview (set_fs k s1) q = fview k q) by (intros q; apply node_at_same; apply Q1).
      splits.
      + apply finv_keeps; auto; apply Q1.
      + apply fframe_same. exact Hvw.
      + intros Hc. split; [apply Q1; exact Hc|reflexivity].
      + intros l' E Hw. rewrite Hvw. exact Hw.
      + intros _ l' E. injection E as <-. split.
        * rewrite Hvw. unfold fview, node_at. rewrite E1. reflexivity.
        * apply alldirs_parents. cbn. unfold alldirs. rewrite (proj2 Q1). exact Ha.
    - intros E0. assert (E : (let '(s, er) := os_mkdir_all s1 (render l) dir_mode in (set_fs k s, option_map with_stack er)) = (k', r)) by (destruct st; [discriminate|exact E0..]).
      clear E0. destruct (os_mkdir_all s1 (render l) dir_mode) as [s2 r2] eqn:E2. injection E as <- <-.
      assert (Hna : nolink_at s1 l).
      { intros q t Hq E. rewrite (proj2 Q1) in E. destruct (loc_dec q l) as [->|Hq']; [destruct (Hdl _ E) as [m Hm]; discriminate|].
        destruct (Hpa q _ Hq Hq' E) as [m Hm]. discriminate. }
      apply os_mkdir_all_lex in E2; auto; [|apply HT1]. destruct E2 as (G & N & C). rewrite Hf.
      assert (HG : grown l (fk_fs k) s2) by (eapply grown_trans; [apply eqfs_grown; exact Q1|exact G]).
      splits.
      + apply finv_keeps; [exact HI| |apply HG]. eapply tinv_grown; [exact HT|exact HG|]. intros e' q Hv' Hf' Hq.
        destruct (loc_dec q l) as [->|Hq']; [rewrite (valid_same e' e l Hv' Hv Hf' Hf); exact Hk|].
        eapply (valid_above e e'); eauto. split; assumption.
      + apply fframe_framed. eapply grown_framed; [exact HG|apply below_refl].
      + intros Hc. split; [apply HG; exact Hc|]. rewrite C; [reflexivity|apply Q1; exact Hc|]. rewrite (proj2 Q1). intros q n Hq E.
        destruct (loc_dec q l) as [->|Hq']; [apply Hdl; exact E|]. eapply Hpa; eauto.
      + intros l' E Hw. injection E as <-. unfold fview, node_at in *. cbn. destruct (f_tree (fk_fs k) l) as [[m| |]|] eqn:E; try discriminate.
        rewrite (grown_dir _ _ _ _ HG m E). reflexivity.
      + intros Hr l' E. injection E as <-. destruct r2; [discriminate|]. destruct (N eq_refl) as [N1 [m N2]]. split.
        * unfold fview, node_at. cbn. rewrite N2. reflexivity.
        * apply alldirs_parents. exact N1.
  Qed.

  (** acceptable symlink targets: relative, and lexically inside Directory *)
  Definition fvlink (e : entry) (t : bytes) : Prop :=
    is_abs t = false /\ at_or_below (fbase c) (walk (removelast (eloc c e)) (split_slash t)).

  Lemma fl_symlink k e t k' r : finv k -> fvalid e -> en_kind e = EkSymlink -> fk_symlink c k e t = (k', r) ->
    finv k' /\ fframe k k' (fof e) /\ (clean (fk_fs k) -> clean (fk_fs k') /\ (fvlink e t -> r = None)) /\
    (r = None -> forall l, fof e = Some l -> fview k' l = Some (NLink t) /\ fparents k' l).
  Proof.
    intros HI Hv Hk. unfold fk_symlink. destruct (should_ignore (en_path e)) eqn:Ei.
    { intros E. injection E as <- <-. unfold fof. rewrite Ei. splits; auto; [apply fframe_same; reflexivity|discriminate]. }
    assert (Hf : fof e = Some (eloc c e)) by (unfold fof; rewrite Ei; reflexivity). unfold fvlink. set (l := eloc c e) in *.
    destruct (valid_dest e l Hv Hf) as (Hd & Hn & Hne). rewrite Hd.
    assert (Hun : forall r0 : option gerr, r0 <> None -> finv k /\ fframe k k (fof e) /\ (r0 = None -> forall l, fof e = Some l -> fview k l = Some (NLink t) /\ fparents k l)).
    { intros r0 Hr. splits; auto; [apply fframe_same; reflexivity|congruence]. }
    rewrite (check_link_spec (fc_wd c) (fc_dir c) l t Hwd Hb Hn). destruct (is_abs t) eqn:Ea.
    { intros E. injection E as <- <-. destruct (Hun (Some ETraversal) ltac:(discriminate)) as (U1 & U2 & U3). splits; auto. intros Hc. split; [exact Hc|]. intros [H _]. discriminate. }
    change (base_loc (fc_wd c) (fc_dir c)) with (fbase c).
    destruct (at_or_belowb (fbase c) (walk (removelast l) (split_slash t))) eqn:Eb.
    2:{ intros E. injection E as <- <-. destruct (Hun (Some ETraversal) ltac:(discriminate)) as (U1 & U2 & U3). splits; auto. intros Hc. split; [exact Hc|].
        intros [_ H]. apply at_or_belowb_spec in H. congruence. }
    clear Hun. pose proof (proj1 HI) as HT. pose proof (ti_above _ HT e l Hv Hf) as Hpa.
    assert (Hnd : forall m, f_tree (fk_fs k) l <> Some (FDir m)).
    { intros m E. pose proof (ti_at _ HT e l _ Hv Hf E) as H. rewrite Hk in H. exact H. }
    destruct (os_remove_all (fk_fs k) (render l)) as [s1 r1] eqn:E1. apply os_remove_all_lex in E1; auto; [|apply HT].
    destruct E1 as (K1 & R1 & R2 & R3 & R4).
    assert (Heq : forall q, q <> l -> f_tree s1 q = f_tree (fk_fs k) q).
    { intros q Hq. destruct (R1 q) as [H|[H1 H2]]; [exact H|]. rewrite H2. symmetry. apply (parcl_below _ l q (ti_par _ HT) Hnd H1 Hq). }
    assert (Hl1 : f_tree s1 l = None \/ f_tree s1 l = f_tree (fk_fs k) l) by (destruct (R1 l) as [H|[_ H]]; auto).
    assert (HT1 : tinv s1).
    { pose proof K1 as (_ & KN & _).
      assert (Hsub : forall q n, f_tree s1 q = Some n -> f_tree (fk_fs k) q = Some n).
      { intros q n E. destruct (R1 q) as [H|[_ H]]; congruence. }
      constructor; try rewrite KN.
      - destruct (ti_root _ HT) as [m Hm]. exists m. rewrite Heq; [exact Hm|auto].
      - apply R4, HT.
      - intros e' q n Hv' Hf' E. eapply (ti_at _ HT); eauto.
      - intros e' q Hv' Hf' p n Hp Hp' E. eapply (ti_above _ HT e' q Hv' Hf'); eauto.
      - intros q i E. eapply (ti_ino _ HT); eauto.
      - intros q q' i E E'. eapply (ti_hard _ HT); eauto. }
    assert (F1 : framed (fk_fs k) s1 l).
    { intros q Hq. left. unfold node_at. rewrite (Heq q Hq), (proj1 K1). reflexivity. }
    destruct r1 as [x|].
    { intros E. injection E as <- <-. rewrite Hf. splits.
      - apply finv_keeps; auto.
      - apply fframe_framed. exact F1.
      - intros Hc. discriminate (R3 Hc).
      - discriminate. }
    assert (Hl1' : f_tree s1 l = None) by (apply R2; [reflexivity|apply HT|apply below_refl]).
    rewrite (path_dir_render l Hn). destruct (os_mkdir_all s1 (render (removelast l)) lucky_mode) as [s2 r2] eqn:E2.
    assert (Hstrict : forall q, at_or_below q (removelast l) -> at_or_below q l /\ q <> l).
    { intros q Hq. split; [eapply below_trans; [exact Hq|apply removelast_below]|]. intros ->.
      apply below_len in Hq. destruct l as [|x d _] using rev_ind; [congruence|]. rewrite removelast_last, app_length in Hq. cbn in Hq. lia. }
    assert (Hpa1 : passable s1 l) by (eapply ti_above; eauto).
    apply os_mkdir_all_lex in E2; [|apply HT1|apply Forall_removelast; exact Hn|].
    2:{ intros q t' Hq E. destruct (Hstrict q Hq) as [Hq1 Hq2]. destruct (Hpa1 q _ Hq1 Hq2 E) as [m Hm]. discriminate. }
    destruct E2 as (G & N & C).
    assert (HT2 : tinv s2).
    { eapply tinv_grown; [exact HT1|exact G|]. intros e' q Hv' Hf' Hq. destruct (Hstrict q Hq). eapply (valid_above e e'); eauto. split; assumption. }
    assert (K2 : keeps (fk_fs k) s2) by (eapply keeps_trans; [exact K1|apply G]).
    assert (F2 : framed (fk_fs k) s2 l).
    { intros q Hq. destruct (grown_framed s1 s2 l _ G (removelast_below l) q Hq) as [H|(H1 & H2 & H3)].
      - rewrite H. apply F1. exact Hq.
      - right. splits; auto. destruct (F1 q Hq) as [H|(_ & _ & H)]; congruence. }
    destruct r2 as [x|].
    { intros E. injection E as <- <-. rewrite Hf. splits.
      - apply finv_keeps; auto.
      - apply fframe_framed. exact F2.
      - intros Hc. exfalso. assert (X : Some x = None); [|discriminate]. apply C; [apply K1; exact Hc|]. intros q n Hq E. destruct (Hstrict q Hq). eapply Hpa1; eauto.
      - discriminate. }
    clear C. assert (Hal : alldirs s2 l).
    { destruct (N eq_refl) as [N1 N2]. destruct l as [|x d _] using rev_ind; [congruence|]. rewrite removelast_last in *. apply alldirs_snoc. auto. }
    assert (Hl2 : f_tree s2 l = None).
    { destruct (proj2 G l) as [H|(H & _)]; [congruence|]. destruct (Hstrict l H). congruence. }
    destruct (os_symlink s2 t (render l)) as [s3 r3] eqn:E3. apply os_symlink_lex in E3; [|apply HT2|exact Hn|apply passable_nolink; eapply ti_above; eauto].
    destruct E3 as (K3 & P3 & C3). intros E. injection E as <- <-. rewrite Hf.
    assert (K : keeps (fk_fs k) s3) by (eapply keeps_trans; [exact K2|exact K3]).
    destruct P3 as [[T3 Hr]|(-> & _ & _ & T3 & T3')].
    - splits.
      + apply finv_keeps; auto. eapply tinv_same; [exact T3|apply K3|exact HT2].
      + apply fframe_framed. intros q Hq. cbn. rewrite (node_at_same s2 s3 T3 (proj1 K3) q). apply F2. exact Hq.
      + intros Hc. destruct (Hr (C3 (proj2 (proj2 (proj2 (proj2 (proj2 (proj2 K2))))) Hc) Hal Hl2)).
      + intros H. destruct r3; [discriminate|congruence].
    - pose proof K3 as (KI & KN & _). splits.
      + apply finv_keeps; auto. constructor; try rewrite KN.
        * destruct (ti_root _ HT2) as [m Hm]. exists m. rewrite T3'; [exact Hm|auto].
        * intros q Hq p Hp Hp'. assert (Hp2 : exists m, f_tree s2 p = Some (FDir m)).
          { destruct (loc_dec q l) as [->|Hql]; [apply Hal; assumption|]. rewrite T3' in Hq by exact Hql. apply (ti_par _ HT2 q Hq); assumption. }
          destruct Hp2 as [m Hm]. exists m. rewrite T3'; [exact Hm|]. intros ->. congruence.
        * intros e' q n Hv' Hf' E. destruct (loc_dec q l) as [->|Hql].
          -- rewrite (valid_same e' e l Hv' Hv Hf' Hf), Hk. rewrite T3 in E. injection E as <-. exact Logic.I.
          -- rewrite T3' in E by exact Hql. eapply (ti_at _ HT2); eauto.
        * intros e' q Hv' Hf' p n Hp Hp' E. destruct (loc_dec p l) as [->|Hpl].
          -- exfalso. assert (HD : en_kind e = EkDir) by (eapply (valid_above e' e); eauto; split; auto). congruence.
          -- rewrite T3' in E by exact Hpl. eapply (ti_above _ HT2 e' q); eauto.
        * intros q i E. destruct (loc_dec q l) as [->|Hql]; [congruence|]. rewrite T3' in E by exact Hql. eapply (ti_ino _ HT2); eauto.
        * intros q q' i E E'. destruct (loc_dec q l) as [->|Hql]; [congruence|]. destruct (loc_dec q' l) as [->|Hql']; [congruence|].
          rewrite T3' in E, E' by assumption. eapply (ti_hard _ HT2); eauto.
      + apply fframe_framed. intros q Hq. assert (H : node_at s3 q = node_at s2 q) by (unfold node_at; rewrite T3' by exact Hq; rewrite KI; reflexivity).
        cbn. rewrite H. apply F2. exact Hq.
      + intros Hc. split; [apply K; exact Hc|reflexivity].
      + intros _ l' E. injection E as <-. split.
        * unfold fview, node_at. cbn. rewrite T3. reflexivity.
        * apply alldirs_parents. intros q Hq Hq'. cbn. rewrite T3' by exact Hq'. apply Hal; assumption.
  Qed.

  (** closing writers *)
  Definition closing (k k' : fsink) : Prop :=
    f_tree (fk_fs k') = f_tree (fk_fs k) /\ f_ino (fk_fs k') = f_ino (fk_fs k) /\ f_next (fk_fs k') = f_next (fk_fs k) /\ f_nexth (fk_fs k') = f_nexth (fk_fs k) /\
    f_umask (fk_fs k') = f_umask (fk_fs k) /\
    (clean (fk_fs k) -> clean (fk_fs k')) /\ fk_nextw k' = fk_nextw k /\
    (forall w h, fk_ws k' w = Some (Some h) -> fk_ws k w = Some (Some h)) /\
    (forall j, f_hand (fk_fs k') j = f_hand (fk_fs k) j \/ f_hand (fk_fs k') j = None /\ exists w, fk_ws k w = Some (Some j)).
  Lemma closing_refl k : closing k k.
  Proof. unfold closing. splits; auto. Qed.
  Lemma closew_closing k w k' r : fk_closew_ k w = (k', r) -> closing k k' /\ (clean (fk_fs k) -> hinv (fk_fs k) -> (forall h, fk_ws k w = Some (Some h) -> f_hand (fk_fs k) h <> None) -> r = None).
  Proof.
    unfold fk_closew_. destruct (fk_ws k w) as [[h|]|] eqn:Ew; [|intros E; injection E as <- <-; split; [apply closing_refl|auto]..].
    destruct (f_close (fk_fs k) h) as [s1 r1] eqn:E1. intros E. injection E as <- <-. pose proof E1 as E2. apply f_close_any in E1. destruct E1 as (A1 & A2 & A3 & A4 & A5 & A6 & A7 & A8 & A9).
    split.
    - unfold closing. cbn. splits; auto.
      + intros w' h'. destruct (Nat.eqb w' w); [discriminate|auto].
      + intros j. destruct (Nat.eq_dec j h) as [->|Hj]; [right; split; [exact A5|eauto]|left; apply A4; exact Hj].
    - intros Hc _ Hh. specialize (Hh h eq_refl). destruct (f_hand (fk_fs k) h) as [x|] eqn:Ex; [|congruence].
      destruct (f_close_spec _ _ _ _ _ Ex E2) as (_ & _ & _ & H). rewrite (H Hc). reflexivity.
  Qed.
  Lemma close_closing k k' r : fk_close k = (k', r) -> closing k k'.
  Proof.
    unfold fk_close. destruct (fk_writer k) as [w|]; [|intros E; injection E as <- <-; apply closing_refl].
    destruct (fk_closew_ k w) as [k1 r1] eqn:E1. apply closew_closing in E1. destruct E1 as [E1 _]. intros E. injection E as <- <-. exact E1.
  Qed.
  Lemma closing_finv k k' : finv k -> closing k k' -> finv k'.
  Proof.
    intros (HT & HH & HW) (A1 & A2 & A3 & A4 & AU & A5 & A6 & A7 & A8). unfold finv. splits.
    - eapply tinv_same; eauto.
    - intros j Hj. rewrite A4 in Hj. destruct (A8 j) as [H|[H _]]; [rewrite H; apply HH; exact Hj|exact H].
    - intros w h Hw. rewrite A4. apply (HW w). apply A7. exact Hw.
  Qed.

  Lemma others_tinv s s' h i : tinv s -> others s s' h i -> tinv s'.
  Proof. intros H (O1 & O2 & O3 & _). eapply tinv_same; eauto. Qed.
  Lemma others_hinv s s' h i : hinv s -> (h < f_nexth s)%nat -> others s s' h i -> hinv s'.
  Proof. intros H Hh (_ & _ & _ & O4 & O5 & _) j Hj. rewrite O5 in Hj. rewrite O4 by lia. apply H. exact Hj. Qed.

  (** w is a writer at location l, at the end of the file there *)
  Definition fopen (k : fsink) (w : option nat) (o : option loc) (off : nat) : Prop :=
    match o with
    | None => w = None
    | Some l => exists n h i, w = Some n /\ fk_ws k n = Some (Some h) /\ f_hand (fk_fs k) h = Some (MkH i off) /\
        f_tree (fk_fs k) l = Some (FFile i) /\ length (i_data (f_ino (fk_fs k) i)) = off
    end.

  Definition old_content (k : fsink) (l : loc) : bytes := match fview k l with Some (NFile d) => d | _ => [] end.

  Lemma fl_getw k e k' r : finv k -> fvalid e -> en_kind e = EkFile -> 0 <= en_woff e -> fk_getw c k e = (k', r) ->
    finv k' /\ fframe k k' (fof e) /\
    (forall l d n, fof e = Some l -> fview k l = Some (NFile d) -> (n <= Z.to_nat (en_woff e))%nat -> (n <= length d)%nat ->
       exists d', fview k' l = Some (NFile d') /\ (n <= length d')%nat /\ firstn n d' = firstn n d) /\
    match r with
    | Ok w => (clean (fk_fs k) -> clean (fk_fs k')) /\ fopen k' w (fof e) (Z.to_nat (en_woff e)) /\
        (forall l, fof e = Some l -> fparents k' l /\ fview k' l = Some (NFile (zfit (Z.to_nat (en_woff e)) (old_content k l))))
    | Err _ => ~ clean (fk_fs k)
    | _ => False
    end.
  Proof.
    intros HI Hv Hk Hw. unfold fk_getw. destruct (should_ignore (en_path e)) eqn:Ei.
    { intros E. injection E as <- <-. unfold fof. rewrite Ei. splits; auto; [apply fframe_same; reflexivity|discriminate|reflexivity|discriminate]. }
    assert (Hf : fof e = Some (eloc c e)) by (unfold fof; rewrite Ei; reflexivity). set (l := eloc c e) in *. rewrite Hf.
    destruct (valid_dest e l Hv Hf) as (Hd & Hn & Hne). pose proof HI as (HT & HH & HW).
    pose proof (ti_above _ HT e l Hv Hf) as Hpa. pose proof (fits_file _ e l HT Hv Hf Hk) as Hfit.
    destruct (create_file c (fk_fs k) e) as [s1 f] eqn:E1. apply (create_file_lex c (fk_fs k) e l) in E1; auto; try apply HT.
    2:{ left. intros t E. destruct Hfit as [H|[i H]]; congruence. }
    destruct E1 as (Cr & F1 & F2 & F3).
    assert (HT1 : tinv s1) by (eapply tinv_created; eauto).
    assert (HH1 : hinv s1) by (eapply hinv_created; eauto).
    assert (HF1 : framed (fk_fs k) s1 l) by (apply created_framed; auto).
    assert (Hold : forall d, fview k l = Some (NFile d) -> exists i, f_tree (fk_fs k) l = Some (FFile i) /\ f_tree s1 l = Some (FFile i) /\ i_data (f_ino s1 i) = d).
    { intros d. unfold fview, node_at. destruct (f_tree (fk_fs k) l) as [[|t|i]|] eqn:El; try discriminate. intros E. injection E as <-. exists i. splits; auto.
      - destruct (cr_node _ _ _ Cr) as [H|[[H|[t H]] _]]; congruence.
      - apply (cr_data _ _ _ Cr). eapply ti_ino; eauto. }
    assert (Hle1 : (f_nexth (fk_fs k) <= f_nexth s1)%nat) by (destruct (cr_handn _ _ _ Cr) as [[H|H] _]; lia).
    assert (Hndir : forall m, f_tree (fk_fs k) l <> Some (FDir m)) by (intros m E; destruct Hfit as [H|[i H]]; congruence).
    destruct f as [h|x| |]; [|clear F1 F2|exfalso; destruct F1 as [[? ?]|[? ?]]; discriminate..].
    2:{ intros E. injection E as <- <-. splits.
        - apply finv_fs; auto.
        - apply fframe_framed. exact HF1.
        - intros l' d n E Hd' Hn1 Hn2. injection E as <-. destruct (Hold d Hd') as (i & _ & H1 & H2). exists d. splits; auto.
          unfold fview, node_at. cbn. rewrite H1, H2. reflexivity.
        - intros Hc. destruct (F3 Hc Hndir) as [h Hh]. discriminate. }
    clear F1 F3. destruct (F2 h eq_refl) as (Hh & Hnh & Hal & i & Hhi & Hti & Hcase & _). clear F2.
    assert (Hdata : i_data (f_ino s1 i) = old_content k l).
    { unfold old_content. destruct Hcase as [H|([H|[t H]] & _ & _ & H2 & _)]; unfold fview, node_at; rewrite H; try exact H2.
      destruct (Hold (i_data (f_ino (fk_fs k) i))) as (i' & H1 & H2 & H3); [unfold fview, node_at; rewrite H; reflexivity|].
      assert (i' = i) by congruence. subst i'. exact H3. }
    assert (Huniq : forall q, f_tree s1 q = Some (FFile i) -> q = l) by (intros q Hq; eapply (ti_hard _ HT1); eauto).
    assert (Hcl1 : clean (fk_fs k) -> clean s1) by apply Cr.
    assert (Hfin : forall s, others s1 s h i -> (i_data (f_ino s i) = old_content k l \/ i_data (f_ino s i) = zfit (Z.to_nat (en_woff e)) (old_content k l)) ->
      finv (set_fs k s) /\ fframe k (set_fs k s) (Some l) /\
      (forall l' d n, Some l = Some l' -> fview k l' = Some (NFile d) -> (n <= Z.to_nat (en_woff e))%nat -> (n <= length d)%nat ->
         exists d', fview (set_fs k s) l' = Some (NFile d') /\ (n <= length d')%nat /\ firstn n d' = firstn n d)).
    { intros s Ho Hdt. pose proof Ho as (O1 & O2 & O3 & O4 & O5 & _). splits.
      - apply finv_fs; auto; [eapply others_tinv; eauto| |lia]. eapply others_hinv; eauto. lia.
      - apply fframe_framed. eapply others_framed; eauto.
      - intros l' d n E Hd' Hn1 Hn2. injection E as <-. unfold old_content in Hdt. rewrite Hd' in Hdt.
        exists (i_data (f_ino s i)). split; [unfold fview, node_at; cbn; rewrite O1, Hti; reflexivity|].
        destruct Hdt as [Hdt|Hdt]; rewrite Hdt; [auto|]. rewrite zfit_length. split; [exact Hn1|apply zfit_prefix; assumption]. }
    match goal with |- context [if 0 <? en_woff e then ?a else ?b] => destruct (if 0 <? en_woff e then a else b) as [s2 r2] eqn:E2 end.
    assert (M2 : others s1 s2 h i /\ f_ino s2 = f_ino s1 /\ (r2 = None /\ f_hand s2 h = Some (MkH i (Z.to_nat (en_woff e))) \/ r2 <> None) /\ (clean s1 -> r2 = None)).
    { destruct (0 <? en_woff e) eqn:Ew.
      - eapply f_seek_spec in E2; [|exact Hhi]. cbn [h_ino] in E2. destruct E2 as (B1 & B2 & B3 & B4). splits; auto.
        destruct B3 as [(B3 & _ & B5)|[B3 _]]; [left; auto|right; exact B3].
      - injection E2 as <- <-. splits; auto; [unfold others; splits; auto|]. left. split; [reflexivity|].
        replace (Z.to_nat (en_woff e)) with 0%nat by lia. exact Hhi. }
    clear E2. destruct M2 as (O2 & I2 & R2 & C2).
    destruct r2 as [x|].
    { intros E. injection E as <- <-. destruct (Hfin s2 O2) as (X1 & X2 & X3); [left; rewrite I2; exact Hdata|]. splits; auto.
      intros Hc. discriminate (C2 (Hcl1 Hc)). }
    destruct R2 as [[_ R2]|R2]; [|congruence].
    destruct (f_truncate s2 h (en_woff e)) as [s3 r3] eqn:E3. eapply f_truncate_spec in E3; [|exact R2]. cbn [h_ino] in E3.
    destruct E3 as (O3 & H3 & _ & R3 & C3). rewrite I2 in R3.
    assert (O13 : others s1 s3 h i) by (eapply others_trans; eassumption).
    assert (Hcl2 : clean s1 -> clean s2) by apply O2. assert (Hcl3 : clean s2 -> clean s3) by apply O3.
    destruct R3 as [(-> & _ & D3)|[Hr3 D3]].
    2:{ destruct r3 as [x|]; [|congruence]. intros E. injection E as <- <-. destruct (Hfin s3 O13) as (X1 & X2 & X3); [left; rewrite D3; exact Hdata|]. splits; auto.
        intros Hc. discriminate (C3 (Hcl2 (Hcl1 Hc)) Hw). }
    rewrite Hdata in D3. destruct (Hfin s3 O13) as (X1 & X2 & X3); [right; exact D3|].
    destruct (fk_close (set_fs k s3)) as [k4 r4] eqn:E4. apply close_closing in E4.
    pose proof (closing_finv _ _ X1 E4) as HI4. pose proof E4 as (A1 & A2 & A3 & A4 & _ & A5 & A6 & A7 & A8). cbn [set_fs fk_fs] in A1, A2, A3, A4, A5, A8.
    intros E. injection E as <- <-.
    pose proof O13 as (P1 & P2 & P3 & P4 & P5 & _).
    assert (Hvw : forall q, node_at (fk_fs k4) q = node_at s3 q) by (apply node_at_same; assumption).
    splits.
    - destruct HI4 as (U1 & U2 & U3). unfold finv. splits; auto. intros w h'. cbn. destruct (Nat.eqb w (fk_nextw k4)); [|apply U3].
      intros E. injection E as <-. lia.
    - intros q Hq. unfold fview. cbn [fk_fs]. rewrite Hvw. exact (X2 q Hq).
    - intros l' d n E Hd' Hn1 Hn2. unfold fview. cbn [fk_fs]. rewrite Hvw. exact (X3 l' d n E Hd' Hn1 Hn2).
    - intros Hc. cbn. auto.
    - unfold fopen. cbn. exists (fk_nextw k4), h, i. rewrite Nat.eqb_refl, A1, A2, P1, D3, zfit_length. splits; auto.
      destruct (A8 h) as [A8'|[_ [w A8']]]; [rewrite A8'; exact H3|]. cbn in A8'. apply HW in A8'. lia.
    - intros l' E. injection E as <-. split.
      + apply alldirs_parents. cbn. unfold alldirs. rewrite A1, P1. exact Hal.
      + unfold fview. cbn [fk_fs]. rewrite Hvw. unfold node_at. rewrite P1, Hti, D3. reflexivity.
  Qed.

  Lemma fl_prealloc k e k' r : finv k -> fvalid e -> en_kind e = EkFile -> fk_prealloc c k e = (k', r) ->
    finv k' /\ fframe k k' (fof e) /\ (clean (fk_fs k) -> clean (fk_fs k') /\ r = None) /\
    (forall l, fof e = Some l ->
       (fview k l = None -> fview k' l = None \/ exists n, fview k' l = Some (NFile (repeat zero n))) /\
       (forall d, fview k l = Some (NFile d) -> exists n, fview k' l = Some (NFile (d ++ repeat zero n))) /\
       (r = None -> fparents k' l /\ fview k' l = Some (NFile (old_content k l ++ repeat zero (Z.to_nat (en_usize e) - length (old_content k l)))))).
  Proof.
    intros HI Hv Hk. unfold fk_prealloc. destruct (should_ignore (en_path e)) eqn:Ei.
    { intros E. injection E as <- <-. unfold fof. rewrite Ei. splits; auto; [apply fframe_same; reflexivity|discriminate]. }
    assert (Hf : fof e = Some (eloc c e)) by (unfold fof; rewrite Ei; reflexivity). set (l := eloc c e) in *. rewrite Hf.
    destruct (valid_dest e l Hv Hf) as (Hd & Hn & Hne). pose proof HI as (HT & HH & HW).
    pose proof (ti_above _ HT e l Hv Hf) as Hpa. pose proof (fits_file _ e l HT Hv Hf Hk) as Hfit.
    destruct (create_file c (fk_fs k) e) as [s1 f] eqn:E1. apply (create_file_lex c (fk_fs k) e l) in E1; auto; try apply HT.
    2:{ left. intros t E. destruct Hfit as [H|[i H]]; congruence. }
    destruct E1 as (Cr & F1 & F2 & F3).
    assert (HT1 : tinv s1) by (eapply tinv_created; eauto).
    assert (HH1 : hinv s1) by (eapply hinv_created; eauto).
    assert (HF1 : framed (fk_fs k) s1 l) by (apply created_framed; auto).
    assert (Hold : forall d, fview k l = Some (NFile d) -> exists i, f_tree (fk_fs k) l = Some (FFile i) /\ f_tree s1 l = Some (FFile i) /\ i_data (f_ino s1 i) = d).
    { intros d. unfold fview, node_at. destruct (f_tree (fk_fs k) l) as [[|t|i]|] eqn:El; try discriminate. intros E. injection E as <-. exists i. splits; auto.
      - destruct (cr_node _ _ _ Cr) as [H|[[H|[t H]] _]]; congruence.
      - apply (cr_data _ _ _ Cr). eapply ti_ino; eauto. }
    assert (Hle1 : (f_nexth (fk_fs k) <= f_nexth s1)%nat) by (destruct (cr_handn _ _ _ Cr) as [[H|H] _]; lia).
    assert (Hndir : forall m, f_tree (fk_fs k) l <> Some (FDir m)) by (intros m E; destruct Hfit as [H|[i H]]; congruence).
    destruct f as [h|x| |]; [|clear F1 F2|exfalso; destruct F1 as [[? ?]|[? ?]]; discriminate..].
    2:{ intros E. injection E as <- <-. splits.
        - apply finv_fs; auto.
        - apply fframe_framed. exact HF1.
        - intros Hc. destruct (F3 Hc Hndir) as [h Hh]. discriminate.
        - intros l' E. injection E as <-. splits; [| |discriminate].
          + unfold fview, node_at. cbn. intros E. destruct (cr_node _ _ _ Cr) as [H|[_ [H|H]]]; rewrite H; auto.
            * left. destruct (f_tree (fk_fs k) l) as [[| |]|]; try discriminate. reflexivity.
            * right. exists 0%nat. cbn. destruct (f_tree (fk_fs k) l) as [[| |]|] eqn:El; try discriminate.
              destruct (cr_next _ _ _ Cr) as [H'|[H' _]]; [pose proof (ti_ino _ HT1 _ _ H); lia|].
              rewrite (proj1 (cr_new _ _ _ Cr H')). reflexivity.
          + intros d Hd'. destruct (Hold d Hd') as (i & _ & H1 & H2). exists 0%nat. unfold fview, node_at. cbn. rewrite H1, H2, app_nil_r. reflexivity. }
    clear F1 F3. destruct (F2 h eq_refl) as (Hh & Hnh & Hal & i & Hhi & Hti & Hcase & _). clear F2.
    assert (Hdata : i_data (f_ino s1 i) = old_content k l).
    { unfold old_content. destruct Hcase as [H|([H|[t H]] & _ & _ & H2 & _)]; unfold fview, node_at; rewrite H; try exact H2.
      destruct (Hold (i_data (f_ino (fk_fs k) i))) as (i' & H1 & H2 & H3); [unfold fview, node_at; rewrite H; reflexivity|].
      assert (i' = i) by congruence. subst i'. exact H3. }
    assert (Huniq : forall q, f_tree s1 q = Some (FFile i) -> q = l) by (intros q Hq; eapply (ti_hard _ HT1); eauto).
    assert (Hcl1 : clean (fk_fs k) -> clean s1) by apply Cr.
    match goal with |- context [if 0 <? en_usize e then ?a else ?b] => destruct (if 0 <? en_usize e then a else b) as [s2 r2] eqn:E2 end.
    assert (M2 : others s1 s2 h i /\ (exists p, f_hand s2 h = Some (MkH i p)) /\
      (exists n, i_data (f_ino s2 i) = i_data (f_ino s1 i) ++ repeat zero n /\ (r2 = None -> n = Z.to_nat (en_usize e) - length (i_data (f_ino s1 i)))%nat) /\ (clean s1 -> r2 = None)).
    { destruct (0 <? en_usize e) eqn:Eu; [destruct (fc_legacy c)|].
      - eapply legacy_preallocate_spec in E2; [|exact Hhi]. cbn [h_ino] in E2. destruct E2 as (B1 & B2 & _ & _ & (n & B3 & _ & B4) & B5). splits; eauto.
      - eapply ox_preallocate_spec in E2; [|exact Hhi]. cbn [h_ino] in E2. destruct E2 as (B1 & B2 & _ & _ & (n & B3 & _ & B4) & B5). splits; eauto.
      - injection E2 as <- <-. splits; eauto; [unfold others; splits; auto|]. exists 0%nat. cbn. rewrite app_nil_r. split; [reflexivity|]. lia. }
    clear E2. destruct M2 as (O2 & [p2 H2] & (n & D2 & N2) & C2).
    destruct (f_close s2 h) as [s3 r3] eqn:E3. eapply f_close_spec in E3; [|exact H2]. cbn [h_ino] in E3. destruct E3 as (O3 & I3 & H3 & _).
    assert (O : others s1 s3 h i) by (eapply others_trans; eassumption). rewrite Hdata in *.
    intros E. injection E as <- <-. pose proof O as (P1 & P2 & P3 & P4 & P5 & _ & _ & P8).
    assert (Hw3 : node_at s3 l = Some (NFile (old_content k l ++ repeat zero n))).
    { unfold node_at. rewrite P1, Hti, I3, D2. reflexivity. }
    splits.
    - apply finv_fs; auto; [eapply others_tinv; eauto| |lia]. eapply others_hinv; eauto. lia.
    - apply fframe_framed. eapply others_framed; eauto.
    - intros Hc. cbn. auto.
    - intros l' E. injection E as <-. change (fview (set_fs k s3) l) with (node_at s3 l). rewrite Hw3. unfold old_content in *. splits.
      + intros E. rewrite E. right. exists n. reflexivity.
      + intros d E. rewrite E. exists n. reflexivity.
      + intros Hr. rewrite N2 by exact Hr. split; [|reflexivity]. apply alldirs_parents. cbn. unfold alldirs. rewrite P1. exact Hal.
  Qed.

  Lemma fl_write k w o off d k' n adv x : finv k -> fopen k w o off -> fk_write k w d = (k', (n, adv, x)) ->
    finv k' /\ (n <= length d)%nat /\ (x = None -> n = length d) /\ (clean (fk_fs k) -> clean (fk_fs k') /\ x = None) /\
    match o with
    | Some l => adv = Z.of_nat n /\ fopen k' w o (off + n) /\
        (forall l', l' <> l -> fview k' l' = fview k l') /\
        (forall d0, fview k l = Some (NFile d0) -> fview k' l = Some (NFile (d0 ++ firstn n d)))
    | None => adv = 0 /\ fopen k' w None off /\ forall l', fview k' l' = fview k l'
    end.
  Proof.
    intros HI Ho. unfold fk_write. destruct o as [l|].
    2:{ cbn in Ho. subst w. intros E. injection E as <- <- <- <-. splits; auto. reflexivity. }
    destruct Ho as (n0 & h & i & -> & Hw & Hh & Ht & Hl). rewrite Hw.
    destruct (f_write (fk_fs k) h d) as [s1 [n1 r1]] eqn:E1. intros E. injection E as <- <- <- <-.
    eapply f_write_spec in E1; [|exact Hh]. cbn [h_ino h_pos] in E1. destruct E1 as (O & B1 & B2 & B3 & B4 & _ & _ & B5 & B6).
    pose proof O as (P1 & P2 & P3 & P4 & P5 & _ & _ & P8). pose proof HI as (HT & HH & HW).
    assert (HD : i_data (f_ino s1 i) = i_data (f_ino (fk_fs k) i) ++ firstn n1 d).
    { destruct (Nat.eq_dec n1 0) as [->|Hn]; [rewrite B5 by reflexivity; cbn; rewrite app_nil_r; reflexivity|].
      rewrite B6 by exact Hn. rewrite <- Hl. apply overwrite_end. }
    splits; auto.
    - apply finv_fs; auto; [eapply others_tinv; eauto| |lia]. eapply others_hinv; eauto.
    - exists n0, h, i. cbn. rewrite P1. splits; auto. rewrite HD, app_length, firstn_length. lia.
    - intros q Hq. unfold fview, node_at. cbn. rewrite P1. destruct (f_tree (fk_fs k) q) as [[| |j]|] eqn:E; try reflexivity.
      rewrite P2; [reflexivity|]. intros ->. apply Hq. eapply (ti_hard _ HT); eauto.
    - intros d0. unfold fview, node_at. cbn. rewrite P1, Ht, HD. intros E. injection E as <-. reflexivity.
  Qed.

  Lemma fl_sync k w o off k' r : finv k -> fopen k w o off -> fk_sync k w = (k', r) ->
    finv k' /\ fopen k' w o off /\ (clean (fk_fs k) -> clean (fk_fs k') /\ r = None) /\ (forall l', fview k' l' = fview k l') /\
    (r = None -> forall l, o = Some l -> durable_at (fk_fs k') l = fview k' l).
  Proof.
    intros HI Ho. unfold fk_sync. destruct o as [l|].
    2:{ cbn in Ho. subst w. intros E. injection E as <- <-. splits; auto; [reflexivity|discriminate]. }
    destruct Ho as (n0 & h & i & -> & Hw & Hh & Ht & Hl). rewrite Hw.
    destruct (f_sync (fk_fs k) h) as [s1 r1] eqn:E1. intros E. injection E as <- <-.
    eapply f_sync_spec in E1; [|exact Hh]. cbn [h_ino h_pos] in E1. destruct E1 as (O & B1 & B2 & _ & B3 & B4).
    pose proof O as (P1 & P2 & P3 & P4 & P5 & _ & _ & P8). pose proof HI as (HT & HH & HW).
    splits; auto.
    - apply finv_fs; auto; [eapply others_tinv; eauto| |lia]. eapply others_hinv; eauto.
    - exists n0, h, i. cbn. rewrite P1, B2. splits; auto.
    - intros q. unfold fview, node_at. cbn. rewrite P1. destruct (f_tree (fk_fs k) q) as [[| |j]|] eqn:E; try reflexivity.
      destruct (Nat.eq_dec j i) as [->|Hj]; [rewrite B2; reflexivity|]. rewrite P2 by exact Hj. reflexivity.
    - intros Hr l' E. injection E as <-. unfold durable_at, fview, node_at. cbn. rewrite P1, Ht, B2, (B3 Hr). reflexivity.
  Qed.

  Lemma fl_closew k w o off k' r : finv k -> fopen k w o off -> fk_closew k w = (k', r) ->
    finv k' /\ (clean (fk_fs k) -> clean (fk_fs k')) /\ forall l', fview k' l' = fview k l'.
  Proof.
    intros HI Ho. unfold fk_closew. destruct w as [w|]; [|intros E; injection E as <- <-; auto].
    intros E. apply closew_closing in E. destruct E as [E _]. splits.
    - eapply closing_finv; eauto.
    - apply E.
    - apply node_at_same; apply E.
  Qed.

  Definition folder_laws : sink_laws (folder_sink c).
  Proof.
    refine (MkSinkLaws (folder_sink c) loc loc_dec fof above fvalid fvlink (fun _ _ => True) fview finv (fun k => clean (fk_fs k)) fopen _ _ _ _ _ _ _ _ _ _ _ _).
    - intros e w. reflexivity.
    - intros e w (e0 & H). exists e0. exact H.
    - intros e w t H. exact H.
    - intros e e' l l' H1 H2 H3 H4 H5. exact (valid_above e e' l l' H1 H2 H3 H4 H5).
    - intros k e k' r H1 H2 H3 H4. exact (fl_mkdir k e k' r H1 H2 H3 H4).
    - intros k e t k' r H1 H2 H3 H4. exact (fl_symlink k e t k' r H1 H2 H3 H4).
    - intros k e k' r H1 H2 H3 H4. destruct (fl_prealloc k e k' r H1 H2 H3 H4) as (A & B & C & _). splits; auto.
    - intros k e k' r H1 H2 H3 H4 _ H5. destruct (fl_getw k e k' r H1 H2 H3 H4 H5) as (A & B & C & D). splits; auto.
      destruct r; auto. destruct D as (D1 & D2 & D3). splits; auto. intros l Hl. apply D3. exact Hl.
    - intros k w l off H1 (n & h & i & _ & _ & _ & Ht & Hl). exists (i_data (f_ino (fk_fs k) i)). split; [|exact Hl].
      unfold fview, node_at. rewrite Ht. reflexivity.
    - intros k w o off d k' n adv x H1 H2 _ H3. exact (fl_write k w o off d k' n adv x H1 H2 H3).
    - intros k w o off k' r H1 H2 H3. destruct (fl_sync k w o off k' r H1 H2 H3) as (A & B & C & D & _). splits; auto.
    - intros k w o off k' r H1 H2 H3. exact (fl_closew k w o off k' r H1 H2 H3).
  Defined.
End FL.
