(** Copier_proofs.v -- proofs about the copier. *)
From Verif Require Import Base Base_proofs Source Copier CopySpec.

(** The stop flag, once set, stays set (only Do itself clears it). *)
Definition sticky {X} (E : cenv X) : Prop :=
  (forall x n, ce_stopped E x = true -> ce_stopped E (fst (ce_read E x n)) = true) /\
  (forall x d, ce_stopped E x = true -> ce_stopped E (fst (ce_write E x d)) = true) /\
  (forall x n, ce_stopped E x = true -> ce_stopped E (fst (ce_should E x n)) = true) /\
  (forall x, ce_stopped E x = true -> ce_stopped E (ce_want E x) = true) /\
  (forall x, ce_stopped E x = true -> ce_stopped E (ce_emit E x) = true).

Section CopyLog.
  Context {X : Type} (E : cenv X).
  Local Notation N := (Z.of_nat copy_buf) (only parsing).

  (** Events of one completed iteration that goes on. *)
  Definition iter_evs d s1 m s2 (em : bool) s3 (b : bool) s4 s5 : list (cev * bool) :=
    [(VRead N d None, s1); (VWrite d m None, s2)] ++ (if em then [(VEmit, s3)] else []) ++
    [(VShould (zlen d) b, s4)] ++ (if b then [(VWant, s5)] else []).

  Inductive script : Z -> list (cev * bool) -> res unit -> Prop :=
  | ScNil pc r : r = Ok tt \/ r = Panic \/ r = Hang -> script pc [] r
  | ScWriteErr pc d re s1 m e s2 :
      script pc [(VRead N d re, s1); (VWrite d m (Some e), s2)] (Err (with_stack e))
  | ScReadErr pc d re s1 m s2 s3 :
      script pc ([(VRead N d (Some re), s1); (VWrite d m None, s2)] ++
                 (if pc + Z.of_nat m >? progress_threshold then [(VEmit, s3)] else []))
        (if gerr_eqb re EEof then Ok tt else Err (with_stack re))
  | ScIter pc d s1 m s2 s3 b s4 s5 evs r :
      script (if pc + Z.of_nat m >? progress_threshold then 0 else pc + Z.of_nat m) evs r ->
      script pc (iter_evs d s1 m s2 (pc + Z.of_nat m >? progress_threshold) s3 b s4 s5 ++ evs) r.

  Lemma copy_script : forall fuel x l pc x' l' r,
    copy_loop (observed E) fuel (x, l) pc = ((x', l'), r) ->
    exists evs, l' = l ++ evs /\ script pc evs r.
  Proof.
    induction fuel as [|f IH]; intros x l pc x' l' r.
    - cbn. destruct (ce_stopped E x); injection 1 as <- <- <-; exists []; rewrite app_nil_r; split; auto; constructor; auto.
    - cbn [copy_loop]. change (ce_stopped (observed E) (x, l)) with (ce_stopped E x).
      destruct (ce_stopped E x).
      { injection 1 as <- <- <-; exists []; rewrite app_nil_r; split; auto; constructor; auto. }
      unfold copy_step. cbn [ce_read observed fst snd].
      destruct (ce_read E x copy_buf) as [x1 [d re| |]].
      2,3: injection 1 as <- <- <-; exists []; rewrite app_nil_r; split; auto; constructor; auto.
      cbn [ce_write observed fst snd].
      destruct (ce_write E x1 d) as [x2 [m [e|]]].
      { injection 1 as <- <- <-. eexists. split; [rewrite <- app_assoc; reflexivity|]. apply ScWriteErr. }
      destruct re as [re|].
      + intros H. assert (H' : exists s3, (x', l') = (if pc + Z.of_nat m >? progress_threshold then ce_emit E x2 else x2,
            l ++ [(VRead N d (Some re), ce_stopped E x1); (VWrite d m None, ce_stopped E x2)] ++
            (if pc + Z.of_nat m >? progress_threshold then [(VEmit, s3)] else []))
            /\ r = if gerr_eqb re EEof then Ok tt else Err (with_stack re)).
        { exists (ce_stopped E (ce_emit E x2)). cbn [ce_emit observed fst snd] in H.
          destruct (pc + Z.of_nat m >? progress_threshold), re; injection H as <- <- <-;
            rewrite <- ?app_assoc; split; reflexivity. }
        destruct H' as (s3 & Hx & ->). injection Hx as Hx ->. eexists. split; [reflexivity|]. apply ScReadErr.
      + cbn [ce_emit observed fst snd]. set (em := pc + Z.of_nat m >? progress_threshold).
        set (x3 := if em then ce_emit E x2 else x2).
        set (l3 := l ++ [(VRead N d None, ce_stopped E x1); (VWrite d m None, ce_stopped E x2)] ++
            (if em then [(VEmit, ce_stopped E (ce_emit E x2))] else [])).
        assert (Hx3 : (if em
            then (ce_emit E x2, ((l ++ [(VRead (Z.of_nat copy_buf) d None, ce_stopped E x1)]) ++ [(VWrite d m None, ce_stopped E x2)]) ++ [(VEmit, ce_stopped E (ce_emit E x2))])
            else (x2, (l ++ [(VRead (Z.of_nat copy_buf) d None, ce_stopped E x1)]) ++ [(VWrite d m None, ce_stopped E x2)])) = (x3, l3)).
        { unfold x3, l3. destruct em; rewrite <- ?app_assoc; reflexivity. }
        rewrite Hx3. cbn [ce_should observed fst snd].
        destruct (ce_should E x3 (zlen d)) as [x4 b].
        intros H.
        set (s4 := ce_stopped E x4) in *.
        assert (Hc : copy_loop (observed E) f (if b then ce_want E x4 else x4,
            (l3 ++ [(VShould (zlen d) b, s4)]) ++ if b then [(VWant, ce_stopped E (ce_want E x4))] else []) (if em then 0 else pc + Z.of_nat m) = (x', l', r)).
        { destruct b; [exact H|]. rewrite app_nil_r. exact H. }
        destruct (IH _ _ _ _ _ _ Hc) as (evs & -> & Hs).
        exists (iter_evs d (ce_stopped E x1) m (ce_stopped E x2) em (ce_stopped E (ce_emit E x2)) b s4 (ce_stopped E (ce_want E x4)) ++ evs).
        split; [|apply ScIter; exact Hs].
        unfold l3, iter_evs. rewrite <- !app_assoc. reflexivity.
  Qed.

  Lemma script_bytes pc evs r : script pc evs r -> handed evs = delivered evs.
  Proof.
    induction 1 as [| |pc d re s1 m s2 s3|pc d s1 m s2 s3 b s4 s5 evs r Hs IH]; try reflexivity.
    - destruct (pc + Z.of_nat m >? progress_threshold); reflexivity.
    - unfold iter_evs. unfold handed, delivered in *. rewrite !flat_map_app, IH.
      destruct (pc + Z.of_nat m >? progress_threshold), b; cbn [flat_map fst app]; rewrite ?app_nil_r; reflexivity.
  Qed.

  Lemma script_reads pc evs r : script pc evs r ->
    (forall n d e s, In (VRead n d e, s) evs -> n = N) /\
    (forall pre n d e s post, evs = pre ++ (VRead n d (Some e), s) :: post -> Forall (fun v => ~ is_read v) post) /\
    (forall pre d m e s post, evs = pre ++ (VWrite d m (Some e), s) :: post -> post = []).
  Proof.
    induction 1 as [pc r Hr|pc d re s1 m e s2|pc d re s1 m s2 s3|pc d s1 m s2 s3 b s4 s5 evs r Hs (I1 & I2 & I3)].
    - splits; [intros ? ? ? ? []|intros [|] ? ? ? ? ? [=]..].
    - splits.
      + intros n d' e' s [[= <- _ _ _] | [[=] | []]]. reflexivity.
      + intros [|? [|? [|? ?]]] ? ? ? ? ? [=]; subst; constructor; [intros []|constructor].
      + intros [|? [|? [|? ?]]] ? ? ? ? ? [=]; subst; reflexivity.
    - splits.
      + intros n d' e' s Hi. apply in_app_iff in Hi. destruct Hi as [[[= <- _ _ _] | [[=] | []]]|Hi]; [reflexivity|].
        destruct (pc + Z.of_nat m >? progress_threshold); [destruct Hi as [[=] | []]|destruct Hi].
      + intros pre n d' e s post Heq. destruct pre as [|v pre].
        * injection Heq as _ _ _ _ <-. destruct (pc + Z.of_nat m >? progress_threshold); repeat constructor; intros [].
        * injection Heq as _ Heq. destruct pre as [|v' pre]; [discriminate|]. injection Heq as _ Heq.
          destruct (pc + Z.of_nat m >? progress_threshold); destruct pre as [|? [|? ?]]; discriminate.
      + intros pre d' m' e s post Heq. destruct pre as [|v [|v' pre]]; [discriminate| discriminate|].
        injection Heq as _ _ Heq.
        destruct (pc + Z.of_nat m >? progress_threshold); destruct pre as [|? [|? ?]]; discriminate.
    - splits.
      + intros n d' e' s Hi. apply in_app_iff in Hi. destruct Hi as [Hi|Hi]; [|exact (I1 _ _ _ _ Hi)].
        unfold iter_evs in Hi. destruct (pc + Z.of_nat m >? progress_threshold), b; cbn [In app] in Hi;
          decompose [or] Hi; clear Hi; try congruence; try contradiction.
      + intros pre n d' e s post Heq. unfold iter_evs in Heq.
        destruct (pc + Z.of_nat m >? progress_threshold), b; cbn [app] in Heq;
          repeat (destruct pre as [|? pre]; cbn [app] in Heq; [try discriminate|injection Heq as _ Heq]; try (exact (I2 _ _ _ _ _ _ Heq)));
          exact (I2 [] _ _ _ _ _ Heq).
      + intros pre d' m' e s post Heq. unfold iter_evs in Heq.
        destruct (pc + Z.of_nat m >? progress_threshold), b; cbn [app] in Heq;
          repeat (destruct pre as [|? pre]; cbn [app] in Heq; [try discriminate|injection Heq as _ Heq]; try (exact (I3 _ _ _ _ _ _ Heq)));
          exact (I3 [] _ _ _ _ _ Heq).
  Qed.

  Lemma script_end pc evs r : script pc evs r ->
    match r with
    | Err e =>
        (exists pre d m e0 s, evs = pre ++ [(VWrite d m (Some e0), s)] /\ e = with_stack e0) \/
        (exists n d e0 s, In (VRead n d (Some e0), s) evs /\ e0 <> EEof /\ e = with_stack e0)
    | _ => True
    end.
  Proof.
    induction 1 as [pc r Hr|pc d re s1 m e s2|pc d re s1 m s2 s3|pc d s1 m s2 s3 b s4 s5 evs r Hs IH].
    - destruct Hr as [-> | [-> | ->]]; exact Logic.I.
    - left. exists [(VRead N d re, s1)], d, m, e, s2. split; reflexivity.
    - destruct re; cbn; try exact Logic.I; right; eexists _, _, _, _; split; try (left; reflexivity); split; try discriminate; reflexivity.
    - destruct r as [u|e| |]; auto. destruct IH as [(pre & d' & m' & e0 & s & -> & ->)|(n & d' & e0 & s & Hi & H1 & H2)].
      + left. eexists (_ ++ pre), d', m', e0, s. split; [|reflexivity]. rewrite <- app_assoc. reflexivity.
      + right. exists n, d', e0, s. split; [|auto]. apply in_app_iff. right. exact Hi.
  Qed.

  Lemma script_saves pc evs r : script pc evs r ->
    asked evs = good_chunks evs /\ wants_ok false evs /\ emits_ok progress_threshold pc false evs.
  Proof.
    induction 1 as [pc r Hr|pc d re s1 m e s2|pc d re s1 m s2 s3|pc d s1 m s2 s3 b s4 s5 evs r Hs (I1 & I2 & I3)].
    - cbn. auto.
    - cbn. destruct re; cbn; auto.
    - destruct (pc + Z.of_nat m >? progress_threshold) eqn:Hpc;
        cbn [app asked flat_map fst good_chunks wants_ok emits_ok]; rewrite ?Hpc; splits; auto.
    - unfold iter_evs. destruct (pc + Z.of_nat m >? progress_threshold) eqn:Hpc, b;
        cbn [app asked flat_map fst good_chunks wants_ok emits_ok] in *; unfold asked in *;
        cbn [app flat_map fst]; rewrite ?I1, ?Hpc; splits; auto.
  Qed.
End CopyLog.

(** The last good chunk and stop: the final flag and stop behaviour. *)
Section CopyStop.
  Context {X : Type} (E : cenv X) (HS : sticky E).

  (** Events after the flag was seen set. *)
  Lemma copy_stop : forall fuel x l pc x' l' r,
    copy_loop (observed E) fuel (x, l) pc = ((x', l'), r) ->
    exists evs, l' = l ++ evs /\
    (ce_stopped E x = true -> evs = [] /\ r = Ok tt) /\
    (r = Ok tt -> ce_stopped E x' = true \/ exists n d s, In (VRead n d (Some EEof), s) evs) /\
    (forall pre v post, evs = pre ++ (v, true) :: post ->
      Forall (fun w => ~ is_read w /\ snd w = true) post /\
      (forall n d e, v = VRead n d e -> exists m e' post', post = (VWrite d m e', true) :: post') /\
      (r = Ok tt \/ (exists n d e s, In (VRead n d (Some e), s) evs) \/ (exists d m e s, In (VWrite d m (Some e), s) evs))).
  Proof.
    destruct HS as (S1 & S2 & S3 & S4 & S5).
    induction fuel as [|f IH]; intros x l pc x' l' r; cbn [copy_loop];
      change (ce_stopped (observed E) (x, l)) with (ce_stopped E x); destruct (ce_stopped E x) eqn:Hst.
    1,3: injection 1 as <- <- <-; exists []; rewrite app_nil_r; splits; auto; intros [|] ? ? [=].
    { injection 1 as <- <- <-; exists []; rewrite app_nil_r; splits; auto; try discriminate. intros [|] ? ? [=]. }
    unfold copy_step. cbn [ce_read observed fst snd].
    pose proof (S1 x copy_buf) as HS1.
    destruct (ce_read E x copy_buf) as [x1 [d re| |]]; cbn [fst] in HS1.
    2,3: injection 1 as <- <- <-; exists []; rewrite app_nil_r; splits; auto; try discriminate; intros [|] ? ? [=].
    cbn [ce_write observed fst snd]. pose proof (S2 x1 d) as HS2.
    destruct (ce_write E x1 d) as [x2 [m [e|]]]; cbn [fst] in HS2.
    { injection 1 as <- <- <-. eexists. split; [rewrite <- app_assoc; reflexivity|]. splits; try discriminate.
      intros [|v1 [|v2 [|v3 pre]]] v post Heq; cbn in Heq; try discriminate.
      - injection Heq as Hv Hs Hp. subst v post. rewrite (HS2 Hs). splits.
        + constructor; [split; [intros []|reflexivity]|constructor].
        + intros n d0 e0 [= _ <- _]. eauto.
        + right; right. eexists _, _, _, _. right; left; reflexivity.
      - injection Heq as _ Hv Hs Hp. subst v post. splits; [constructor|discriminate|].
        right; right. eexists _, _, _, _. right; left; reflexivity. }
    set (em := pc + Z.of_nat m >? progress_threshold).
    set (x3 := if em then ce_emit E x2 else x2).
    assert (HS3 : ce_stopped E x2 = true -> ce_stopped E x3 = true) by (unfold x3; destruct em; auto).
    set (l3 := (if em then [(VEmit, ce_stopped E x3)] else [])).
    cbn [ce_emit observed fst snd].
    assert (Hx3 : (if em
            then (ce_emit E x2, ((l ++ [(VRead (Z.of_nat copy_buf) d re, ce_stopped E x1)]) ++ [(VWrite d m None, ce_stopped E x2)]) ++ [(VEmit, ce_stopped E (ce_emit E x2))])
            else (x2, (l ++ [(VRead (Z.of_nat copy_buf) d re, ce_stopped E x1)]) ++ [(VWrite d m None, ce_stopped E x2)]))
       = (x3, l ++ (VRead (Z.of_nat copy_buf) d re, ce_stopped E x1) :: (VWrite d m None, ce_stopped E x2) :: l3)).
    { unfold l3, x3. destruct em; rewrite <- ?app_assoc; reflexivity. }
    rewrite Hx3. clear Hx3.
    assert (HL3 : forall w, In w l3 -> ~ is_read w /\ (ce_stopped E x2 = true -> snd w = true)).
    { unfold l3. intros w. destruct em; [intros [<- | []]|intros []]. split; [intros []|]. exact HS3. }
    destruct re as [re|].
    - intros H. assert (H' : x' = x3 /\ l' = l ++ (VRead (Z.of_nat copy_buf) d (Some re), ce_stopped E x1) :: (VWrite d m None, ce_stopped E x2) :: l3
          /\ r = if gerr_eqb re EEof then Ok tt else Err (with_stack re)).
      { destruct re; injection H as <- <- <-; auto. }
      destruct H' as (-> & -> & ->). eexists. split; [reflexivity|]. splits.
      + discriminate.
      + destruct re; try discriminate. intros _. right. eexists _, _, _. left. reflexivity.
      + intros pre v post Heq.
        assert (Hre : exists n d0 e s, In (VRead n d0 (Some e), s) ((VRead (Z.of_nat copy_buf) d (Some re), ce_stopped E x1) :: (VWrite d m None, ce_stopped E x2) :: l3))
          by (eexists _, _, _, _; left; reflexivity).
        destruct pre as [|v1 [|v2 pre]]; cbn in Heq.
        * injection Heq as Hv Hs Hp. subst v post. splits; [|intros n d0 e0 [= _ <- _]; rewrite (HS2 Hs); eauto|tauto].
          apply Forall_forall. intros w [<- | Hw]; [split; [intros []|exact (HS2 Hs)]|].
          destruct (HL3 w Hw). auto.
        * injection Heq as _ Hv Hs Hp. subst v post. splits; [|discriminate|tauto].
          apply Forall_forall. intros w Hw. destruct (HL3 w Hw). auto.
        * injection Heq as _ _ Heq. unfold l3 in Heq. destruct em; [|destruct pre; discriminate].
          destruct pre as [|? [|? ?]]; try discriminate. injection Heq as Hv Hs Hp. subst v post.
          splits; [constructor|discriminate|tauto].
    - cbn [ce_should observed fst snd]. pose proof (S3 x3 (zlen d)) as HS4.
      destruct (ce_should E x3 (zlen d)) as [x4 b]; cbn [fst] in HS4.
      set (x5 := if b then ce_want E x4 else x4).
      assert (HS5 : ce_stopped E x4 = true -> ce_stopped E x5 = true) by (unfold x5; destruct b; auto).
      intros H.
      set (l5 := (VShould (zlen d) b, ce_stopped E x4) :: if b then [(VWant, ce_stopped E x5)] else []).
      assert (Hc : copy_loop (observed E) f (x5, l ++ ((VRead (Z.of_nat copy_buf) d None, ce_stopped E x1) :: (VWrite d m None, ce_stopped E x2) :: l3 ++ l5)) (if em then 0 else pc + Z.of_nat m) = (x', l', r)).
      { revert H. unfold l5, x5. destruct b; cbn [ce_want observed fst snd].
        - rewrite <- !app_assoc. cbn [app]. auto.
        - rewrite <- !app_assoc. cbn [app]. auto. }
      clear H. destruct (IH _ _ _ _ _ _ Hc) as (evs & -> & J1 & J2 & J3).
      eexists. split; [rewrite <- app_assoc; reflexivity|]. splits.
      + discriminate.
      + intros Hr. destruct (J2 Hr) as [|(n & d0 & s & Hi)]; [left; assumption|]. right. exists n, d0, s.
        apply in_app_iff. right. exact Hi.
      + set (E5 := (VRead (Z.of_nat copy_buf) d None, ce_stopped E x1) :: (VWrite d m None, ce_stopped E x2) :: l3 ++ l5).
        assert (HL5 : forall w, In w l5 -> ~ is_read w).
        { unfold l5. intros w [<- | Hw]; [intros []|]. destruct b; [destruct Hw as [<- | []]; intros []|destruct Hw]. }
        (* within one iteration the flag stays set *)
        assert (Hmono : forall pre v post, E5 = pre ++ (v, true) :: post ->
            Forall (fun w => ~ is_read w /\ snd w = true) post /\ ce_stopped E x5 = true /\
            (forall n d e, v = VRead n d e -> exists m e' post', post = (VWrite d m e', true) :: post')).
        { intros pre v post Heq. unfold E5, l3, l5 in Heq. destruct em, b; cbn [app] in Heq;
            repeat (destruct pre as [|? pre]; cbn [app] in Heq; [injection Heq as Hv Hs Hp; subst v post|injection Heq as _ Heq]);
            try (destruct pre; discriminate Heq); try discriminate Heq;
            repeat match goal with
            | Hs : ce_stopped E x1 = true |- _ => rewrite ?Hs in *; specialize (HS2 eq_refl)
            | Hs : ce_stopped E x2 = true |- _ => rewrite ?Hs in *; specialize (HS3 eq_refl)
            | Hs : ce_stopped E x3 = true |- _ => rewrite ?Hs in *; specialize (HS4 eq_refl)
            | Hs : ce_stopped E x4 = true |- _ => rewrite ?Hs in *; specialize (HS5 eq_refl)
            end;
            (splits; [repeat (constructor; try (split; [intros []|assumption || reflexivity]))|assumption|
               try discriminate; intros ? ? ? [= _ <- _]; eauto]). }
        intros pre v post Heq.
        destruct (app_eq_app _ _ _ _ Heq) as (mid & [[Ha Hb]|[Ha Hb]]).
        * destruct mid as [|w mid].
          -- cbn in Hb. rewrite app_nil_r in Ha.
             destruct (J3 [] v post (eq_sym Hb)) as (K1 & K2 & K3). splits; auto.
             destruct K3 as [K3|[(n & d0 & e & s & K3)|(d0 & m0 & e & s & K3)]]; [auto|right; left|right; right];
               eexists _, _, _, _; apply in_app_iff; right; exact K3.
          -- injection Hb as <- ->. destruct (Hmono pre v mid Ha) as (M1 & M2 & M3).
             destruct (J1 M2) as [-> ->]. rewrite app_nil_r. splits; auto.
        * destruct (J3 mid v post Hb) as (K1 & K2 & K3). splits; auto.
          destruct K3 as [K3|[(n & d0 & e & s & K3)|(d0 & m0 & e & s & K3)]]; [auto|right; left|right; right];
               eexists _, _, _, _; apply in_app_iff; right; exact K3.
  Qed.
End CopyStop.
