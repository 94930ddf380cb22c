(** ExFolder.v -- concrete file systems for the examples beside the FolderSink
    theorems, and boolean tests for the theorems' hypotheses. *)
From Verif Require Import Base Base_proofs Path PathSpec Path_proofs Source Sink SinkSpec FS FS_proofs FolderSink FSLex_proofs FolderSpec.

Definition tree_of (xs : list (loc * fnode)) (l : loc) : option fnode :=
  match find (fun p => loc_eqb (fst p) l) xs with Some p => Some (snd p) | None => None end.
Lemma tree_of_in xs l n : tree_of xs l = Some n -> In (l, n) xs.
Proof.
  unfold tree_of. destruct (find _ xs) as [[l' n']|] eqn:E; [|discriminate]. intros H. cbn in H. injection H as <-.
  apply find_some in E. destruct E as [Hin He]. apply loc_eqb_eq in He. cbn in He. subst l'. exact Hin.
Qed.

(** a fresh sink on the file system with nodes [xs] and file contents [fs]
    (inode numbers are positions in [fs]); umask 022; working directory "/" *)
Definition ex_inode (fs : list (bytes * Z)) (i : nat) : inode :=
  match nth_error fs i with Some (d, m) => MkIno d d m | None => MkIno [] [] 0 end.
Definition ex_fsys xs fs orc : fsys := MkFs (tree_of xs) (ex_inode fs) (length fs) (fun _ => None) 0 [] 18 orc [].
Definition ex_sink xs fs orc : fsink := MkFsk (ex_fsys xs fs orc) None (fun _ => None) 0.
Definition ok_orc : nat -> option fault := fun _ => None.

Definition isdirb (o : option fnode) : bool := match o with Some (FDir _) => true | _ => false end.
Definition tree_b (xs : list (loc * fnode)) : bool :=
  forallb (fun p => forallb (fun i => isdirb (tree_of xs (firstn i (fst p)))) (seq 0 (length (fst p)))) xs.
Definition above_b xs (l : loc) : bool :=
  forallb (fun i => isdirb (tree_of xs (firstn i l)) || match tree_of xs (firstn i l) with None => true | _ => false end) (seq 0 (length l)).
Definition hard_b (xs : list (loc * fnode)) (l : loc) : bool :=
  match tree_of xs l with
  | Some (FFile i) => forallb (fun p => match snd p with FFile j => negb (Nat.eqb i j) || loc_eqb (fst p) l | _ => true end) xs
  | _ => true
  end.
Definition ino_b (xs : list (loc * fnode)) (n : nat) : bool :=
  forallb (fun p => match snd p with FFile i => Nat.ltb i n | _ => true end) xs.

Lemma prefix_firstn (q l : loc) : at_or_below q l -> q <> l -> exists i, q = firstn i l /\ In i (seq 0 (length l)).
Proof.
  intros [r ->] Hne. exists (length q). split; [rewrite firstn_app, firstn_all, Nat.sub_diag; cbn; rewrite app_nil_r; reflexivity|].
  apply in_seq. rewrite app_length. destruct r; [rewrite app_nil_r in Hne; congruence|cbn; lia].
Qed.
Lemma isdirb_true o : isdirb o = true -> exists m, o = Some (FDir m).
Proof. destruct o as [[m| |]|]; try discriminate. eauto. Qed.

Lemma ex_approachable xs fs orc l :
  isdirb (tree_of xs []) = true -> tree_b xs = true -> above_b xs l = true -> hard_b xs l = true -> ino_b xs (length fs) = true ->
  approachable (ex_sink xs fs orc) l.
Proof.
  intros H1 H2 H3 H4 H5. constructor; cbn [ex_sink ex_fsys fk_fs f_tree f_next fk_ws].
  - apply isdirb_true, H1.
  - intros l' q Hl Hq Hne. destruct (tree_of xs l') as [n|] eqn:E; [|congruence]. apply tree_of_in in E.
    unfold tree_b in H2. rewrite forallb_forall in H2. specialize (H2 _ E). cbn [fst] in H2. rewrite forallb_forall in H2.
    destruct (prefix_firstn q l' Hq Hne) as (i & -> & Hi). apply isdirb_true, H2, Hi.
  - intros q n Hq Hne E. destruct (prefix_firstn q l Hq Hne) as (i & -> & Hi). unfold above_b in H3. rewrite forallb_forall in H3. specialize (H3 i Hi). cbn beta in H3.
    rewrite E in H3. destruct n; try discriminate. eauto.
  - intros l' i E E'. unfold hard_b in H4. rewrite E in H4. rewrite forallb_forall in H4. apply tree_of_in in E'. specialize (H4 _ E'). cbn [fst snd] in H4.
    rewrite Nat.eqb_refl in H4. apply loc_eqb_eq. exact H4.
  - intros l' i E. apply tree_of_in in E. unfold ino_b in H5. rewrite forallb_forall in H5. specialize (H5 _ E). cbn in H5. apply Nat.ltb_lt. exact H5.
  - discriminate.
Qed.

(** Directory "/out" *)
Definition ex_c : fcfg := MkFcfg (s2b "/") (s2b "/out") false.
Definition islinkb (n : fnode) : bool := match n with FLink _ => true | _ => false end.
Definition nolinks_b (xs : list (loc * fnode)) : bool := forallb (fun p => negb (islinkb (snd p))) xs.
(** different nodes are different files *)
Definition nohard_b (xs : list (loc * fnode)) : bool :=
  forallb (fun p => forallb (fun p' => match snd p, snd p' with FFile i, FFile j => negb (Nat.eqb i j) || loc_eqb (fst p) (fst p') | _, _ => true end) xs) xs.
Lemma ex_dir_tidy : no_dotdot_after_name (pcomps (s2b "/out")).
Proof. exists [], [s2b "out"]. splits; auto. constructor; [discriminate|constructor]. Qed.
Lemma ex_plain xs fs orc : nolinks_b xs = true -> nohard_b xs = true -> ino_b xs (length fs) = true -> plain ex_c (ex_sink xs fs orc).
Proof.
  intros H1 H2 H3. assert (Hl : forall l t, tree_of xs l <> Some (FLink t)).
  { intros l t E. apply tree_of_in in E. unfold nolinks_b in H1. rewrite forallb_forall in H1. specialize (H1 _ E). discriminate. }
  constructor; cbn [ex_sink ex_fsys fk_fs f_tree f_next fk_ws f_hand f_wd ex_c fc_wd fc_dir]; auto.
  - exact ex_dir_tidy.
  - intros l l' i E E' Hb. apply tree_of_in in E, E'. unfold nohard_b in H2. rewrite forallb_forall in H2. specialize (H2 _ E). rewrite forallb_forall in H2. specialize (H2 _ E').
    cbn [fst snd] in H2. rewrite Nat.eqb_refl in H2. apply loc_eqb_eq in H2. subst l'. exact Hb.
  - intros l i E. apply tree_of_in in E. unfold ino_b in H3. rewrite forallb_forall in H3. specialize (H3 _ E). cbn in H3. apply Nat.ltb_lt. exact H3.
Qed.

Definition ent (k : ekind) (p : string) (mode usize woff : Z) : entry := MkEntry (s2b p) k mode 0 usize woff [].
Definition efile := ent EkFile.
Definition edir (p : string) : entry := ent EkDir p 493 0 0.
Definition elink (p : string) : entry := ent EkSymlink p 511 0 0.
Definition at_ (l : list string) : loc := map s2b l.

(** /out/f is a file "old!", /out/ln a link to it, /out/sub a directory with a
    file "x" in it; /etc/passwd is outside *)
Definition ex_nodes : list (loc * fnode) :=
  [ (at_ [], FDir 493); (at_ ["out"], FDir 493); (at_ ["out"; "f"], FFile 0); (at_ ["out"; "ln"], FLink (s2b "f"));
    (at_ ["out"; "sub"], FDir 493); (at_ ["out"; "sub"; "x"], FFile 1); (at_ ["etc"], FDir 493); (at_ ["etc"; "passwd"], FFile 2) ]%string.
Definition ex_files : list (bytes * Z) := [ (s2b "old!", 256); (s2b "x", 420); (s2b "root", 420) ].
Definition ex_k : fsink := ex_sink ex_nodes ex_files ok_orc.
(** the same without the link *)
Definition ex_nodes0 : list (loc * fnode) :=
  [ (at_ [], FDir 493); (at_ ["out"], FDir 493); (at_ ["out"; "f"], FFile 0);
    (at_ ["out"; "sub"], FDir 493); (at_ ["out"; "sub"; "x"], FFile 1); (at_ ["etc"], FDir 493); (at_ ["etc"; "passwd"], FFile 2) ]%string.
Definition ex_k0 : fsink := ex_sink ex_nodes0 ex_files ok_orc.
Example ex_k0_plain : plain ex_c ex_k0.
Proof. apply ex_plain; vm_compute; reflexivity. Qed.
