(** ExSink.v -- a simple concrete sink: a map from entry paths to contents, used
    to show that the hypotheses of the theorems about sinks can be met and to
    exhibit counterexamples (the sink of the code, FolderSink, is FolderSink.v).
    [ms_dur] is what would survive a power loss: names are durable at once, the
    contents of a file when it is synced. *)
From Verif Require Import Base Base_proofs Source Sink SinkSpec.

Record mstate := MkMs { ms_view : bytes -> option node; ms_dur : bytes -> option node }.

Definition upd (f : bytes -> option node) (l : bytes) (n : node) : bytes -> option node :=
  fun l' => if bytes_eqb l' l then Some n else f l'.
Definition content (o : option node) : bytes := match o with Some (NFile c) => c | _ => [] end.
Definition fit (w : nat) (c : bytes) : bytes := firstn w (c ++ repeat zero w).

Definition map_sink : sink := {|
  k_st := mstate; k_w := bytes;
  k_mkdir := fun s e => (MkMs (upd (ms_view s) (en_path e) NDir) (upd (ms_dur s) (en_path e) NDir), None);
  k_symlink := fun s e t => (MkMs (upd (ms_view s) (en_path e) (NLink t)) (upd (ms_dur s) (en_path e) (NLink t)), None);
  k_getw := fun s e =>
    let l := en_path e in let w := Z.to_nat (en_woff e) in
    (MkMs (upd (ms_view s) l (NFile (fit w (content (ms_view s l)))))
       (upd (ms_dur s) l (NFile (firstn w (content (ms_dur s l))))), Ok l);
  k_prealloc := fun s e =>
    let l := en_path e in
    match ms_view s l with
    | Some (NFile c) => (MkMs (upd (ms_view s) l (NFile (c ++ repeat zero (Z.to_nat (en_usize e) - length c)))) (ms_dur s), None)
    | Some _ => (s, None)
    | None => (MkMs (upd (ms_view s) l (NFile (repeat zero (Z.to_nat (en_usize e))))) (upd (ms_dur s) l (NFile [])), None)
    end;
  k_nuke := fun s => (MkMs (fun _ => None) (fun _ => None), None);
  k_close := fun s => (s, None);
  k_write := fun s w d =>
    (MkMs (upd (ms_view s) w (NFile (content (ms_view s w) ++ d))) (ms_dur s), (length d, zlen d, None));
  k_sync := fun s w => (MkMs (ms_view s) (upd (ms_dur s) w (NFile (content (ms_view s w)))), None);
  k_closew := fun s w => (s, None) |}.

Lemma upd_same f l n : upd f l n l = Some n.
Proof. unfold upd. rewrite (proj2 (bytes_eqb_eq _ _) eq_refl). reflexivity. Qed.
Lemma upd_other f l n l' : l' <> l -> upd f l n l' = f l'.
Proof. intros H. unfold upd. destruct (bytes_eqb l' l) eqn:E; [|reflexivity]. apply bytes_eqb_eq in E. congruence. Qed.

Lemma fit_length w c : length (fit w c) = w.
Proof. unfold fit. rewrite firstn_length, app_length, repeat_length. lia. Qed.
Lemma fit_prefix w c n : (n <= w)%nat -> (n <= length c)%nat -> firstn n (fit w c) = firstn n c.
Proof.
  intros H1 H2. unfold fit. rewrite firstn_firstn, Nat.min_l by lia. rewrite firstn_app.
  replace (n - length c)%nat with 0%nat by lia. cbn. apply app_nil_r.
Qed.

Definition map_laws : sink_laws map_sink.
Proof.
  refine (MkSinkLaws map_sink bytes (list_eq_dec Ascii.ascii_dec) (fun e => Some (en_path e)) (fun _ _ => False)
    (fun _ => True) (fun _ _ => True) (fun _ _ => True) ms_view (fun _ => True) (fun _ => True)
    (fun s w o off => match o with Some l => w = l /\ exists c, ms_view s l = Some (NFile c) /\ length c = off | None => False end)
    _ _ _ _ _ _ _ _ _ _ _ _); cbn [k_st k_w k_mkdir k_symlink k_getw k_prealloc k_nuke k_close k_write k_sync k_closew map_sink fst snd].
  - reflexivity.
  - auto.
  - auto.
  - intros. contradiction.
  - intros st e st' r _ _ _. injection 1 as <- <-. splits; auto.
    + intros l' Hl. left. cbn. apply upd_other. congruence.
    + intros l E _. injection E as <-. apply upd_same.
    + intros _ l E. injection E as <-. split; [apply upd_same|intros ? []].
  - intros st e t st' r _ _ _. injection 1 as <- <-. splits; auto.
    + intros l' Hl. left. cbn. apply upd_other. congruence.
    + intros _ l E. injection E as <-. split; [apply upd_same|intros ? []].
  - intros st e st' r _ _ _ H.
    assert (H1 : r = None /\ forall l', Some (en_path e) <> Some l' -> ms_view st' l' = ms_view st l').
    { destruct (ms_view st (en_path e)) as [[| |]|]; injection H as <- <-; split; auto; intros; cbn; try reflexivity; apply upd_other; congruence. }
    destruct H1 as [-> H1]. splits; auto.
  - intros st e st' r _ _ _ Hw _. injection 1 as <- <-. splits; auto.
    + intros l' Hl. left. cbn. apply upd_other. congruence.
    + intros l c n E Hv Hn Hc. injection E as <-. cbn [ms_view]. rewrite upd_same, Hv. eexists. split; [reflexivity|].
      cbn [content]. rewrite fit_length. split; [lia|]. apply fit_prefix; lia.
    + cbn [ms_view]. rewrite upd_same. eexists. split; [reflexivity|]. apply fit_length.
    + intros l E l' [].
  - intros st w l off _ (_ & c & H1 & H2). eauto.
  - intros st w o off d st' n adv e _ Ho. destruct o as [l|]; [|contradiction]. destruct Ho as (-> & c & H1 & H2). intros _.
    injection 1 as <- <- <- <-. rewrite H1. cbn [content ms_view]. splits; auto.
    + rewrite upd_same. eexists. split; [reflexivity|]. rewrite app_length. lia.
    + intros l' Hl. apply upd_other. exact Hl.
    + intros c' Hc. rewrite upd_same, firstn_all. congruence.
  - intros st w o off st' r _ Ho. injection 1 as <- <-. splits; auto.
  - intros st w o off st' r _ Ho. injection 1 as <- <-. splits; auto.
Defined.

(** An empty destination. *)
Definition map_empty : mstate := MkMs (fun _ => None) (fun _ => None).

(** What the sink holds after the power failed. *)
Definition map_power_loss (s : mstate) : mstate := MkMs (ms_dur s) (ms_dur s).
