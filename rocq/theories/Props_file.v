(** Props_file.v -- C75: file sources *)
From Verif Require Import Base Base_proofs Source Seek Drive FileSource Props_source.

(** Files: what is open before and after. *)
Definition opened (h h' : host) (n : nat) : Prop := ho_open h' n = true /\ forall m, m <> n -> ho_open h' m = ho_open h m.
Definition same_open (h h' : host) : Prop := forall m, ho_open h' m = ho_open h m.
Definition closed (h h' : host) (n : nat) : Prop := ho_open h' n = false /\ forall m, m <> n -> ho_open h' m = ho_open h m.
(** numbers not yet given out are not open *)
Definition host_ok (h : host) : Prop := forall n, (ho_opens h <= n)%nat -> ho_open h n = false.

Lemma tdata_app {CK} (a b : list (tev CK)) : tdata (a ++ b) = tdata a ++ tdata b.
Proof. unfold tdata. rewrite map_app, concat_app. reflexivity. Qed.

(** ** C75: refuted *)
(** If Stat fails, nobody notices, and the file is taken to be empty: a clean
    io.EOF at once. *)
Theorem C75_stat_error_swallowed_refuted : exists h name f, host_ok h /\ ho_files h (ho_opens h) name = inl f /\ hf_stat f = None /\
  hf_data f <> [] /\
  let '(_, r) := file_open h name in exists s, r = inl s /\
    forall n, (0 < n)%nat -> exists st evs, trace seek_source (fs_src s) [CRead n] = (st, evs, false) /\ map te_data evs = [[]] /\ map te_err evs = [Some EEof].
Proof.
  exists (MkHost (fun _ _ => inl (MkHf (s2b "hello") [] [] None)) 0 (fun _ => false) (fun _ => None)), (s2b "f"), (MkHf (s2b "hello") [] [] None).
  split; [intros n _; reflexivity|]. split; [reflexivity|]. split; [reflexivity|]. split; [discriminate|].
  cbn. eexists. split; [reflexivity|]. intros [|n] Hn; [lia|]. eexists _, _. cbn. split; [reflexivity|]. split; reflexivity.
Qed.
(** If the first Seek fails, Open fails -- and leaves the file open. *)
Theorem C75_failed_open_leaks_refuted : exists h name e h', host_ok h /\ file_open h name = (h', inr e) /\
  ho_open h 0 = false /\ ho_open h' 0 = true.
Proof.
  exists (MkHost (fun _ _ => inl (MkHf (s2b "hello") [] [true] (Some 5))) 0 (fun _ => false) (fun _ => None)), (s2b "f").
  eexists _, _. split; [intros n _; reflexivity|]. split; [reflexivity|]. split; reflexivity.
Qed.

(** What is true. Opening: *)
Theorem C75_open_files_partial h name h' r : host_ok h -> file_open h name = (h', r) ->
  host_ok h' /\
  match ho_files h (ho_opens h) name with
  | inr e => r = inr e /\ same_open h h'
  | inl f => exists n, ho_open h n = false /\ opened h h' n /\
      (forall s, r = inl s -> fs_f s = n) /\ ((forall b, In b (hf_seeks f) -> b = false) -> exists s, r = inl s)
  end.
Proof.
  intros Hh. unfold file_open, open_paused, eos_open.
  destruct (ho_files h (ho_opens h) name) as [f|e] eqn:Ef.
  2:{ intros E. injection E as <- <-. split; [|split; [reflexivity|intros m; reflexivity]]. intros n Hn. cbn in *. apply Hh. lia. }
  intros E. assert (Hho : h' = MkHost (ho_files h) (S (ho_opens h)) (fun n => Nat.eqb n (ho_opens h) || ho_open h n) (ho_closing h)).
  { destruct (seek_resume _ None) as [st [z|x| |]]; injection E as <- <-; reflexivity. }
  split.
  { rewrite Hho. intros n Hn. cbn in *. rewrite (proj2 (Nat.eqb_neq _ _)) by lia. apply Hh. lia. }
  exists (ho_opens h). split; [apply Hh; lia|]. split.
  { rewrite Hho. split; cbn; [rewrite Nat.eqb_refl; reflexivity|]. intros m Hm. rewrite (proj2 (Nat.eqb_neq _ _) Hm). reflexivity. }
  cbn [fs_src fs_f] in E. split.
  - intros s ->. destruct (seek_resume _ None) as [st [z|x| |]]; try discriminate; injection E as _ <-; reflexivity.
  - intros Hs. cbn in E. unfold seek_resume, rs_seek in E. cbn in E. destruct (hf_seeks f) as [|[|] t] eqn:Es.
    + injection E as _ <-. eauto.
    + specialize (Hs true (or_introl eq_refl)). discriminate.
    + injection E as _ <-. eauto.
Qed.
(** Reading, if Stat told the size: exactly the bytes of the file, in order,
    io.EOF exactly after the last one, from the first Read on. *)
Theorem C75_open_delivers_partial h name f h' s : ho_files h (ho_opens h) name = inl f -> hf_stat f = Some (zlen (hf_data f)) -> zlen (hf_data f) < two63 ->
  file_open h name = (h', inl s) ->
  seek_size (fs_src s) = zlen (hf_data f) /\ seek_tell (fs_src s) = 0 /\
  (forall ops st' evs bad, trace seek_source (fs_src s) ops = (st', evs, bad) ->
     bad = false /\ tdata evs = firstn (length (tdata evs)) (hf_data f) /\ seek_tell st' = zlen (tdata evs) /\
     (forall pre ev post, evs = pre ++ ev :: post -> te_err ev = Some EEof -> tdata (pre ++ [ev]) = hf_data f) /\
     (forall ev e, In ev evs -> te_err ev = Some e -> e = EEof \/ e = EIO)) /\
  (~ In RsFail (hf_reads f) -> ~ In true (hf_seeks f) ->
     forall n sz st' evs bad, (length (hf_data f) < n)%nat -> (0 < sz)%nat ->
       trace seek_source (fs_src s) (repeat (CRead sz) n) = (st', evs, bad) ->
       tdata evs = hf_data f /\ exists ev, In ev evs /\ te_err ev = Some EEof).
Proof.
  intros Ef Es Hlt. unfold file_open, open_paused, eos_open. rewrite Ef. cbn [fs_src fs_f].
  assert (Hz : 0 <= zlen (hf_data f)) by (unfold zlen; lia).
  assert (Ho : seek_over (hf_data f) 0 (zlen (hf_data f)) (seek_from_file f)).
  { unfold seek_over, seek_from_file. rewrite Es. cbn. repeat split; lia. }
  assert (Hsl : slice (hf_data f) (Z.to_nat 0) (Z.to_nat (zlen (hf_data f))) = hf_data f).
  { unfold slice, zlen. rewrite Nat2Z.id. cbn [Z.to_nat skipn]. apply firstn_all. }
  destruct (seek_resume (seek_from_file f) None) as [st [z|x| |]] eqn:Er; intros E; try discriminate; injection E as _ <-.
  2,3: exfalso; revert Er; unfold seek_resume; destruct (rs_seek _ _) as [rs' [e|]]; discriminate.
  cbn [fs_src].
  assert (z = 0). { revert Er. unfold seek_resume. destruct (rs_seek _ _) as [rs' [e|]]; congruence. } subst z.
  split; [|split; [|split]].
  - revert Er. unfold seek_resume, seek_from_file. rewrite Es. destruct (rs_seek _ _) as [rs' [e|]]; intros E; [discriminate|]. injection E as <-. reflexivity.
  - revert Er. unfold seek_resume. destruct (rs_seek _ _) as [rs' [e|]]; intros E; [discriminate|]. injection E as <-. reflexivity.
  - intros ops st' evs bad Ht. destruct (C01_seek_delivers_in_order _ _ _ _ st ops st' evs bad Ho Er Ht) as (H1 & _ & H3 & H4 & _ & H6).
    rewrite Hsl in H3. split; [exact H1|]. split; [exact H3|]. split; [exact H4|]. split.
    + intros pre ev post He Hee. destruct (H6 pre ev post He) as (_ & H & _). specialize (H Hee).
      assert (Hlen : length (tdata (pre ++ [ev])) = length (hf_data f)).
      { rewrite tdata_app. unfold zlen in H. change (tdata [ev]) with (te_data ev ++ []). rewrite app_nil_r, app_length.
        apply Nat2Z.inj. rewrite Nat2Z.inj_add. exact H. }
      assert (Hp : tdata evs = tdata (pre ++ [ev]) ++ tdata post) by (rewrite <- tdata_app, <- app_assoc; cbn [app]; rewrite <- He; reflexivity).
      rewrite Hp, app_length in H3. assert (Hpost : tdata post = []).
      { apply length_zero_iff_nil. assert (Hl : (length (tdata (pre ++ [ev]) ++ tdata post) <= length (hf_data f))%nat) by (rewrite H3, firstn_length; apply Nat.le_min_r). rewrite app_length, Hlen in Hl. revert Hl. clear. lia. }
      rewrite Hpost, app_nil_r in H3. cbn [length] in H3. rewrite H3, firstn_all2; [reflexivity|]. lia.
    + intros ev e Hin He. apply in_split in Hin. destruct Hin as (pre & post & Hin). destruct (H6 pre ev post Hin) as (_ & _ & _ & _ & H). exact (H e He).
  - intros Hr Hsk n sz st' evs bad Hn Hsz Ht.
    destruct (C01_seek_reaches_the_end _ _ _ _ Ho) as (st2 & Er2 & H); [split; assumption|].
    rewrite Er in Er2. injection Er2 as <-. rewrite Hsl in H. apply (H n sz st' evs bad); [unfold zlen; lia|exact Hsz|exact Ht].
Qed.
(** OpenPaused: nothing can be read before Resume; Resume(nil) makes it what
    Open gives. *)
Theorem C75_open_paused h name h' s : open_paused h name = (h', inl s) ->
  (forall n, exists evs, trace seek_source (fs_src s) [CRead n; CReadByte] = (fs_src s, evs, false) /\ map te_err evs = [Some EUninit; Some EUninit] /\ tdata evs = []) /\
  (forall st z, seek_resume (fs_src s) None = (st, Ok z) -> z = 0 /\ file_open h name = (h', inl (MkFsrc st (fs_f s)))) /\
  (forall st e, seek_resume (fs_src s) None = (st, Err e) -> file_open h name = (h', inr e)).
Proof.
  intros E. split; [|split].
  - intros n. unfold open_paused, eos_open in E. destruct (ho_files h (ho_opens h) name); [|discriminate]. injection E as _ <-.
    eexists. cbn. split; [reflexivity|]. split; reflexivity.
  - intros st z Er. unfold file_open. rewrite E, Er. split; [|reflexivity].
    revert Er. unfold seek_resume. destruct (rs_seek _ _) as [rs' [e|]]; congruence.
  - intros st e Er. unfold file_open. rewrite E, Er. reflexivity.
Qed.
(** Close closes this file and no other; the second time it is an error. *)
Theorem C75_close h name h1 s h2 e : host_ok h -> file_open h name = (h1, inl s) -> file_close h1 s = (h2, e) ->
  closed h1 h2 (fs_f s) /\ same_open h h2 /\ e = ho_closing h1 (fs_f s) /\ file_close h2 s = (h2, Some EClosed).
Proof.
  intros Hh E E2. destruct (C75_open_files_partial h name h1 _ Hh E) as (_ & H). unfold file_close, eos_close in *.
  destruct (ho_files h (ho_opens h) name) as [f|x]; [|destruct H as [H _]; discriminate].
  destruct H as (n & Hn & [O1 O2] & Hs & _). specialize (Hs s eq_refl). subst n. rewrite O1 in E2. injection E2 as <- <-.
  split; [|split; [|split; [reflexivity|]]].
  - split; cbn; [rewrite Nat.eqb_refl; reflexivity|]. intros m Hm. rewrite (proj2 (Nat.eqb_neq _ _) Hm). reflexivity.
  - intros m. cbn. destruct (Nat.eqb m (fs_f s)) eqn:Em; [apply Nat.eqb_eq in Em; subst m; symmetry; exact Hn|]. apply O2. apply Nat.eqb_neq. exact Em.
  - cbn. rewrite Nat.eqb_refl. reflexivity.
Qed.
Example C75_example : let h := MkHost (fun _ _ => inl (MkHf (s2b "hello") [RsChunk 1 false; RsChunk 9 true] [] (Some 5))) 3 (fun _ => false) (fun _ => None) in
  host_ok h /\ exists h' s, file_open h (s2b "f") = (h', inl s) /\ fs_f s = 3%nat /\
  map te_data (snd (fst (trace seek_source (fs_src s) [CRead 4; CReadByte; CRead 4; CRead 4]))) = [s2b "he"; s2b "l"; s2b "lo"; []].
Proof. cbv zeta. split; [intros n _; reflexivity|]. eexists _, _. split; [reflexivity|]. split; [reflexivity|]. vm_compute. reflexivity. Qed.
