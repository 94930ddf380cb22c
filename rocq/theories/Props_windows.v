(** Props_windows.v -- C76: symlinks on Windows *)
From Verif Require Import Base Base_proofs Path PathSpec Path_proofs Source Sink SinkSpec FS FS_proofs FolderSink FSteps_proofs FSLex_proofs FolderSpec Folder_proofs FolderOps_proofs Windows Windows_proofs ExFolder Props_folder.

(** ** C76 *)
(** README: "Writes symlinks as text files on Windows". Whatever Symlink does,
    nothing but the entry's place is touched (and missing folders above it
    created); if it succeeds, there is a regular file there with exactly the
    target in it, and the writer used for it is no longer open; and it does
    succeed if no call fails and no folder is in the way. Any target will do. *)
Theorem C76_symlink_becomes_text_file c k e t k' r : usable c -> inside c e -> approachable k (eloc c e) ->
  no_fault (fk_fs k) \/ (forall t, look (fk_fs k) (eloc c e) <> Some (SLink t)) ->
  en_woff e = 0 -> fk_symlink_win c k e t = (k', r) ->
  only_changed (eloc c e) (fk_fs k) (fk_fs k') /\
  (r = None -> exists m, look (fk_fs k') (eloc c e) = Some (SFile t m)) /\
  (r = None -> exists w, fk_writer k' = Some w /\ forall d, snd (fk_write k' (Some w) d) = (0%nat, 0, Some EClosed)) /\
  (no_fault (fk_fs k) -> (forall m, look (fk_fs k) (eloc c e) <> Some (SDir m)) -> r = None).
Proof.
  intros Hu Hi Ap Hx Hw0 E. destruct (inside_dest c e Hu Hi) as (Hd & Hn & Hne). destruct Hi as [Hin Hig].
  assert (Hx' : (forall t, f_tree (fk_fs k) (eloc c e) <> Some (FLink t)) \/ no_fault (fk_fs k)).
  { destruct Hx as [Hx|Hx]; [right; exact Hx|left]. intros t0 Ht. apply (Hx t0). unfold look. rewrite Ht. reflexivity. }
  unfold fk_symlink_win in E. rewrite Hig in E.
  destruct (fk_getw_win c k e) as [k1 r1] eqn:E1.
  destruct (getw_win_at c k e _ Hd Hn Hne Hig Ap k1 r1 Hx' E1) as (G1 & G2 & G3 & G4 & G5 & _).
  destruct r1 as [w|x| |]; [|clear G2|exfalso; destruct G4 as [[? ?]|[? ?]]; discriminate..].
  2:{ injection E as <- <-. splits; auto; try discriminate. intros Hc Hnd. exfalso.
      destruct G3 as [w Hw]; [exact Hc| |lia|discriminate]. intros m Hm. apply (Hnd m). unfold look. rewrite Hm. reflexivity. }
  destruct (G2 w eq_refl) as (_ & w0 & m & -> & Hwr & Lk & Wo & _). clear G2 G3 G4.
  assert (Hz : zfit (Z.to_nat (en_woff e)) (file_content (fk_fs k) (eloc c e)) = []) by (rewrite Hw0; reflexivity).
  rewrite Hz in Lk, Wo. clear Hz.
  destruct (fk_write k1 (Some w0) t) as [k2 [[n adv] r2]] eqn:E2.
  assert (Hk2 : fk_writer k2 = fk_writer k1).
  { revert E2. unfold fk_write. destruct (fk_ws k1 w0) as [[h|]|]; [|intros X; injection X as <- _ _ _; reflexivity..].
    destruct (f_write (fk_fs k1) h t) as [s [n0 x0]]. intros X. injection X as <- _ _ _. reflexivity. }
  destruct (wopen_write k1 w0 _ [] t k2 n adv r2 Wo E2) as (Wo2 & _ & _ & N2 & C2 & F2 & L2).
  destruct (fk_closew k2 (Some w0)) as [k3 r3] eqn:E3. injection E as <- <-.
  assert (L3 : (forall q, look (fk_fs k3) q = look (fk_fs k2) q) /\ fk_writer k3 = fk_writer k2 /\ fk_ws k3 w0 = Some None).
  { revert E3. unfold fk_closew, fk_closew_. destruct Wo2 as (h & i & Hws & Hh & _). rewrite Hws.
    destruct (f_close (fk_fs k2) h) as [s4 r5] eqn:E5. apply f_close_any in E5. destruct E5 as (A1 & A2 & _).
    intros X. injection X as <- <-. cbn. rewrite Nat.eqb_refl. splits; auto. apply look_same; assumption. }
  destruct L3 as (L3 & W3 & D3). splits.
  - intros q Hq. rewrite L3, F2 by exact Hq. apply G1. exact Hq.
  - intros Hr. destruct r2; [discriminate|]. exists m. rewrite L3, (L2 m Lk), (N2 eq_refl), firstn_all. reflexivity.
  - intros _. exists w0. split; [congruence|]. intros d. unfold fk_write. rewrite D3. reflexivity.
  - intros Hc _. destruct (C2 (G5 Hc)) as [_ ->]. reflexivity.
Qed.
(** an ignored name: nothing happens *)
Theorem C76_ignored c k e t : should_ignore (en_path e) = true -> fk_symlink_win c k e t = (k, None).
Proof. intros H. unfold fk_symlink_win. rewrite H. reflexivity. Qed.
(** An existing file, an existing symlink, a new name in a new folder, with an
    absolute target (refused elsewhere); and a folder in the way, which (unlike
    on other systems, see C25) makes it fail. *)
Definition win_at (p t : string) : option seen * option gerr :=
  let '(k, r) := fk_symlink_win ex_c ex_k (elink p) (s2b t) in (look (fk_fs k) (eloc ex_c (elink p)), r).
Example C76_example :
  usable ex_c /\ inside ex_c (elink "ln") /\ approachable ex_k (eloc ex_c (elink "ln")) /\ no_fault (fk_fs ex_k) /\ en_woff (elink "ln") = 0 /\
  win_at "f" "/etc/passwd" = (Some (SFile (s2b "/etc/passwd") 256), None) /\
  win_at "ln" "g" = (Some (SFile (s2b "g") 493), None) /\
  win_at "a/b" "../x" = (Some (SFile (s2b "../x") 493), None) /\
  win_at "sub" "x" = (Some (SDir 493), Some EIsDir).
Proof.
  splits; [exact usable_ex|split; [apply at_or_belowb_spec|]; vm_compute; reflexivity|apply ex_approachable; vm_compute; reflexivity|intros n; reflexivity|reflexivity|..]; vm_compute; reflexivity.
Qed.
