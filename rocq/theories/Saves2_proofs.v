(** Saves2_proofs.v -- how often extractors call Save, and what they tell ShouldSave. *)
From Verif Require Import Base Base_proofs Source Seek Decomp CodecSpec Contract Drive Stack_proofs Copier Sink Zip Tar CallsSpec SavesSpec Saves_proofs.

Lemma saves_app a b : saves (a ++ b) = (saves a + saves b)%nat.
Proof. unfold saves. rewrite filter_app, app_length. reflexivity. Qed.
Lemma yeses_app a b : yeses (a ++ b) = (yeses a + yeses b)%nat.
Proof. unfold yeses. rewrite filter_app, app_length. reflexivity. Qed.
Lemma reported_app a b : reported (a ++ b) = reported a + reported b.
Proof. unfold reported. induction a as [|[n y|] a IH]; cbn [app fold_right]; lia. Qed.
Lemma written_app {W} (a b : list (aev W)) : written (a ++ b) = written a + written b.
Proof. unfold written. induction a as [|[] a IH]; cbn [app fold_right]; lia. Qed.
Lemma saves_repeat m : saves (repeat SSave m) = m.
Proof. induction m; cbn in *; [reflexivity|unfold saves in *; cbn; lia]. Qed.
Lemma yeses_repeat m : yeses (repeat SSave m) = 0%nat.
Proof. induction m; cbn in *; auto. Qed.
Lemma reported_repeat m : reported (repeat SSave m) = 0.
Proof. induction m; cbn in *; auto. Qed.

Lemma asked_snoc t v : asked_for t -> (saves (t ++ [v]) <= yeses (t ++ [v]))%nat -> asked_for (t ++ [v]).
Proof.
  intros Ht Hv p q E. destruct q as [|y q _] using rev_ind.
  - rewrite app_nil_r in E. subst p. exact Hv.
  - rewrite app_assoc in E. apply app_inj_tail in E. destruct E as [E _]. exact (Ht _ _ E).
Qed.
Lemma asked_all t : asked_for t -> (saves t <= yeses t)%nat.
Proof. intros H. apply (H t []). rewrite app_nil_r. reflexivity. Qed.
Lemma asked_repeat m : forall t, asked_for t -> (saves t + m <= yeses t)%nat -> asked_for (t ++ repeat SSave m).
Proof.
  induction m as [|m IH]; intros t Ht H; cbn [repeat]; [rewrite app_nil_r; exact Ht|].
  replace (t ++ SSave :: repeat SSave m) with ((t ++ [SSave]) ++ repeat SSave m) by (rewrite <- app_assoc; reflexivity).
  apply IH.
  - apply asked_snoc; [exact Ht|]. rewrite saves_app, yeses_app. cbn. lia.
  - rewrite saves_app, yeses_app. cbn. lia.
Qed.

(** [ans n b]: the consumer may answer b to ShouldSave(n) *)
Definition fair (ans : Z -> bool -> Prop) (v : sev) : Prop := match v with SShould n b => 0 <= n <= 32 * 1024 /\ ans n b | SSave => True end.

(** What holds of the calls of the consumer [t] and the number [w] of bytes written. *)
Definition book (ans : Z -> bool -> Prop) (strict : Prop) (t : list sev) (w : Z) : Prop :=
  asked_for t /\ Forall (fair ans) t /\ reported t <= w /\ (strict -> reported t = w).

Lemma book_weak ans strict t w w' : book ans strict t w -> w <= w' -> book ans False t w'.
Proof. intros (A & B & C & D) H. unfold book. split; [exact A|]. split; [exact B|]. split; [lia|contradiction]. Qed.
Lemma book_saves ans strict t w m : book ans strict t w -> (saves t + m <= yeses t)%nat -> book ans strict (t ++ repeat SSave m) w.
Proof.
  intros (A & B & C & D) H. unfold book. rewrite reported_app, reported_repeat. split; [|split; [|split]].
  - apply asked_repeat; auto.
  - apply Forall_app. split; [exact B|]. apply Forall_forall. intros v Hv. apply repeat_spec in Hv. subst v. exact Logic.I.
  - lia.
  - intros Hs. specialize (D Hs). lia.
Qed.
Lemma book_should (ans : Z -> bool -> Prop) (strict : Prop) t w n (b : bool) : 0 <= n <= 32 * 1024 -> ans n b -> book ans strict t w -> book ans strict (t ++ [SShould n b]) (w + n).
Proof.
  intros Hn Ha (A & B & C & D). unfold book. rewrite reported_app. change (reported [SShould n b]) with (n + 0). split; [|split; [|split]].
  - apply asked_snoc; [exact A|]. pose proof (asked_all _ A). rewrite saves_app, yeses_app. cbn. destruct b; cbn; lia.
  - apply Forall_app. split; [exact B|]. constructor; [exact (conj Hn Ha)|constructor].
  - lia.
  - intros Hs. specialize (D Hs). lia.
Qed.

(** ** reads are no longer than asked, and end without data *)
Lemma rs_read_len r n : (length (snd (fst (rs_read r n))) <= n)%nat.
Proof.
  unfold rs_read. destruct (skipn _ _) as [|a av]; destruct (rs_orc r) as [|[c e|] l]; cbn [snd fst length]; try lia; rewrite firstn_length; cbn [length]; lia.
Qed.
Lemma b_read_len b r n b' r' d e : b_read b r n = (b', r', d, e) -> (length d <= n)%nat.
Proof.
  unfold b_read. destruct (n =? 0)%nat.
  - destruct (b_buf b); injection 1 as _ _ <- _; cbn; lia.
  - destruct (b_buf b); [|injection 1 as _ _ <- _; rewrite firstn_length; lia].
    destruct (b_err b); [injection 1 as _ _ <- _; cbn; lia|].
    destruct (bufsize <=? n)%nat.
    + pose proof (rs_read_len r n) as Hc. destruct (rs_read r n) as [[r1 d1] e1]. injection 1 as _ _ <- _; exact Hc.
    + destruct (rs_read r bufsize) as [[r1 d1] e1]. destruct d1; injection 1 as _ _ <- _; [cbn; lia|rewrite firstn_length; lia].
Qed.
Lemma sr_read_len (C : codec) (I : source) (fuel0 : nat) n : forall fuel i sck s i1 sck1 s1 d e,
  Decomp.sr_read C I fuel0 fuel i sck s n = (i1, sck1, s1, RRet d e) -> (length d <= n)%nat /\ (cd_eager C = false -> e = Some EEof -> d = []).
Proof.
  assert (Hpend : forall fuel i sck s i1 sck1 s1 d e b bs, sr_pend C s = b :: bs ->
    Decomp.sr_read C I fuel0 fuel i sck s n = (i1, sck1, s1, RRet d e) -> (length d <= n)%nat /\ (cd_eager C = false -> e = Some EEof -> d = [])).
  { intros fuel i sck s i1 sck1 s1 d e b bs Hp H.
    assert (Hf : (length (firstn n (b :: bs)) <= n)%nat) by (rewrite firstn_length; lia).
    destruct fuel; cbn [Decomp.sr_read] in H; rewrite Hp in H;
      (destruct (skipn n (b :: bs)); [|injection H as _ _ _ <- <-; split; [exact Hf|discriminate]]);
      (destruct (cd_step C (sr_d C s)); [| | |destruct (_ && _)|destruct (cd_eager C) eqn:Ee|destruct (cd_eager C) eqn:Ee]);
      injection H as _ _ _ <- <-; (split; [exact Hf|intros; congruence]). }
  induction fuel as [|f IH]; intros i sck s i1 sck1 s1 d e H; (destruct (sr_pend C s) as [|b bs] eqn:Hp; [|exact (Hpend _ _ _ _ _ _ _ _ _ _ _ Hp H)]);
    cbn [Decomp.sr_read] in H; rewrite Hp in H; (destruct (sr_fail C s) as [e0|] eqn:Ef; [injection H as _ _ _ <- <-; split; [cbn; lia|auto]|]); [discriminate|].
  destruct (cd_step C (sr_d C s)) as [kk|nn kk|b bs d'|d'| |] eqn:Est.
  - destruct (s_readbyte I (dcomp_onsave C I) i (sck, Some s)) as [[i' [sck' os']] r'].
    destruct r' as [b e'| |]; destruct os' as [s'|]; try discriminate.
    destruct e' as [e'|]; [injection H as _ _ _ <- <-; split; [cbn; lia|auto]|exact (IH _ _ _ _ _ _ _ _ H)].
  - destruct (read_full I (dcomp_onsave C I) fuel0 i (sck, Some s) nn) as [[i' [sck' os']] r'].
    destruct r' as [[b e']|e'| |]; destruct os' as [s'|]; try discriminate; try (destruct e'; discriminate).
    destruct e' as [e'|]; [injection H as _ _ _ <- <-; split; [cbn; lia|auto]|exact (IH _ _ _ _ _ _ _ _ H)].
  - exact (IH _ _ _ _ _ _ _ _ H).
  - destruct (sr_want C s); [injection H as _ _ _ <- <-; split; [cbn; lia|auto]|exact (IH _ _ _ _ _ _ _ _ H)].
  - injection H as _ _ _ <- <-; split; [cbn; lia|auto].
  - injection H as _ _ _ <- <-; split; [cbn; lia|auto].
Qed.
Lemma stk_read_len k K (cb : callback (s_ck (stk_source k)) K) st x n st' x' d e :
  s_read (stk_source k) cb st x n = (st', x', RRet d e) -> (length d <= n)%nat.
Proof.
  destruct k as [|C cfg fuel s]; cbn [stk_source s_read] in *; intros H.
  - cbn [s_read seek_source] in H. unfold seek_read in H. destruct (ss_br st); [|injection H as _ _ <- _; cbn; lia].
    destruct (n =? 0)%nat; [injection H as _ _ <- _; cbn; lia|]. destruct (_ =? 0); [injection H as _ _ <- _; cbn; lia|].
    destruct (_ && _) eqn:Eg; [discriminate|]. destruct (seek_handle_save cb st x) as [[s1 k1] r].
    destruct r; try discriminate; (destruct (ss_br s1); [|discriminate]);
    (match type of H with context [b_read ?a ?b ?c] => destruct (b_read a b c) as [[[b' rs'] d'] e'] eqn:Er; apply b_read_len in Er end);
    injection H as _ _ <- _; (destruct (Z.of_nat n >? _) eqn:Eg2; [|exact Er]); cbn [andb] in Eg; lia.
  - cbn [s_read dcomp_source] in H. unfold dcomp_read in H. destruct (ds_sr _ _ st); [|injection H as _ _ <- _; cbn; lia].
    destruct (Decomp.sr_read _ _ _ _ _ _ _ n) as [[[i1 sck1] sr1] [d1 e1| |]] eqn:Er; try discriminate. apply sr_read_len in Er. destruct Er as [Er _].
    destruct e1 as [[]|]; try (injection H as _ _ <- _; exact Er).
    destruct sck1; [|injection H as _ _ <- _; exact Er]. destruct (negb _); [injection H as _ _ <- _; exact Er|].
    destruct (negb _); [injection H as _ _ <- _; exact Er|]. destruct (cb _ x) as [k1 [|e2|]]; try discriminate; injection H as _ _ <- _; exact Er.
Qed.

(** [lz k st]: the source in this state never returns io.EOF with data *)
Definition lz (k : stk) : s_st (stk_source k) -> Prop :=
  match k return s_st (stk_source k) -> Prop with KSeek => fun st => plain_reader (ss_rs st) | KDec C _ _ _ => fun _ => cd_eager C = false end.
Lemma lz_new k rs start size : plain_eof k rs -> lz k (stk_new k rs start size).
Proof. destruct k; cbn; auto. Qed.
Lemma rs_seek_plain r off : plain_reader r -> plain_reader (fst (rs_seek r off)).
Proof. unfold rs_seek. destruct (rs_sorc r) as [|[] l]; cbn; destruct (off <? 0); auto. Qed.
Lemma rs_read_plain r n : plain_reader r -> plain_reader (fst (fst (rs_read r n))) /\ (snd (rs_read r n) = Some EEof -> snd (fst (rs_read r n)) = []).
Proof.
  unfold rs_read. intros H.
  assert (Ht : forall d p so, plain_reader (MkRs d p (match rs_orc r with _ :: t => t | [] => [] end) so)).
  { intros d p so m Hm. apply (H m). cbn [rs_orc] in Hm. destruct (rs_orc r); [contradiction|right; exact Hm]. }
  assert (Hn : forall c l, rs_orc r <> RsChunk c true :: l). { intros c l E. apply (H c). rewrite E. left. reflexivity. }
  clear H. destruct (rs_orc r) as [|[c e|] l]; [| |split; [apply Ht|discriminate]]; (destruct (skipn _ _) as [|a av]; [split; [apply Ht|reflexivity]|]).
  - split; [apply Ht|discriminate].
  - destruct e; [exfalso; exact (Hn c l eq_refl)|]. split; [apply Ht|discriminate].
Qed.
Lemma b_read_plain b r n b' r' d e : plain_reader r -> b_read b r n = (b', r', d, e) -> plain_reader r' /\ (e = Some EEof -> d = []).
Proof.
  unfold b_read. intros Hr. destruct (n =? 0)%nat.
  - destruct (b_buf b); injection 1 as _ <- <- <-; auto.
  - destruct (b_buf b); [|injection 1 as _ <- <- <-; split; [auto|discriminate]].
    destruct (b_err b); [injection 1 as _ <- <- <-; auto|].
    destruct (bufsize <=? n)%nat.
    + destruct (rs_read_plain r n Hr) as [P1 P2]. destruct (rs_read r n) as [[r1 d1] e1]. injection 1 as _ <- <- <-; auto.
    + destruct (rs_read_plain r bufsize Hr) as [P1 P2]. destruct (rs_read r bufsize) as [[r1 d1] e1]. destruct d1; injection 1 as _ <- <- <-; split; auto; discriminate.
Qed.
Lemma lz_want k st : lz k st -> lz k (s_want (stk_source k) st).
Proof. destruct k; cbn; auto. Qed.
Lemma lz_setssc k st : lz k st -> lz k (s_setssc (stk_source k) st).
Proof. destruct k; cbn; auto. Qed.
Lemma seek_resume_plain st c : plain_reader (ss_rs st) -> plain_reader (ss_rs (fst (seek_resume st c))).
Proof.
  unfold seek_resume. intros H.
  assert (G : forall off, plain_reader (fst (rs_seek (ss_rs st) off))) by (intros; apply rs_seek_plain; exact H).
  destruct c as [c|].
  - destruct (ck_off c <? 0); [exact H|]. specialize (G (wrap64 (ss_start st + ck_off c))). destruct (rs_seek _ _) as [rs' [e|]]; exact G.
  - specialize (G (wrap64 (ss_start st + 0))). destruct (rs_seek _ _) as [rs' [e|]]; exact G.
Qed.
Lemma lz_resume k st c : lz k st -> lz k (fst (s_resume (stk_source k) st c)).
Proof. destruct k as [|C cfg fuel s]; cbn [lz]; auto. exact (seek_resume_plain st c). Qed.
Lemma lz_read k K (cb : callback (s_ck (stk_source k)) K) st x n st' x' r : (forall c y, snd (cb c y) <> CErr EEof) -> lz k st ->
  s_read (stk_source k) cb st x n = (st', x', r) -> lz k st' /\ (forall d, r = RRet d (Some EEof) -> d = []).
Proof.
  intros Hcb. destruct k as [|C cfg fuel s]; cbn [lz stk_source s_read] in *; intros Hl H.
  - cbn [s_read seek_source] in H. unfold seek_read in H. destruct (ss_br st); [|injection H as <- _ <-; split; [exact Hl|intros d E; congruence]].
    destruct (n =? 0)%nat; [injection H as <- _ <-; split; [exact Hl|discriminate]|]. destruct (_ =? 0); [injection H as <- _ <-; split; [exact Hl|intros d E; congruence]|].
    destruct (_ && _) eqn:Eg; [injection H as <- _ <-; split; [exact Hl|discriminate]|].
    assert (Hh : plain_reader (ss_rs (fst (fst (seek_handle_save cb st x))))).
    { unfold seek_handle_save. destruct (ss_want st); [|exact Hl]. destruct (ss_ssc st); [|exact Hl]. destruct (cb _ x). exact Hl. }
    destruct (seek_handle_save cb st x) as [[s1 k1] r1]. cbn [fst] in Hh.
    destruct r1; [| |injection H as <- _ <-; split; [exact Hh|discriminate]]; (destruct (ss_br s1); [|injection H as <- _ <-; split; [exact Hh|discriminate]]);
    (match type of H with context [b_read ?a ?b ?c] => destruct (b_read a b c) as [[[b' rs'] d'] e'] eqn:Er; apply (b_read_plain _ _ _ _ _ _ _ Hh) in Er end);
    injection H as <- _ <-; destruct Er as [E1 E2]; (split; [exact E1|intros d [= <- ->]; auto]).
  - split; [exact Hl|]. cbn [s_read dcomp_source] in H. unfold dcomp_read in H. destruct (ds_sr _ _ st); [|injection H as _ _ <-; intros d E; congruence].
    destruct (Decomp.sr_read _ _ _ _ _ _ _ n) as [[[i1 sck1] sr1] [d1 e1| |]] eqn:Er; [|injection H as _ _ <-; discriminate|injection H as _ _ <-; discriminate].
    apply sr_read_len in Er. destruct Er as [_ Er]. specialize (Er Hl).
    destruct e1 as [[]|]; try (injection H as _ _ <-; intros d E; first [discriminate E|injection E as <-; apply Er; reflexivity]).
    destruct sck1; [|injection H as _ _ <-; discriminate]. destruct (negb _); [injection H as _ _ <-; discriminate|].
    destruct (negb _); [injection H as _ _ <-; discriminate|]. match type of H with context [cb ?a x] => pose proof (Hcb a x) as Hc; destruct (cb a x) as [k1 cr] end. cbn [snd] in Hc.
    destruct cr; injection H as _ _ <-; try discriminate. intros d [= <- ->]. contradiction.
Qed.

Lemma lz_discard k K (cb : callback (s_ck (stk_source k)) K) : (forall c y, snd (cb c y) <> CErr EEof) -> forall fuel st x n,
  lz k st -> lz k (fst (fst (discard_by_read (stk_source k) cb fuel st x n))).
Proof.
  intros Hcb. induction fuel as [|f IH]; intros st x n Hl; cbn [discard_by_read]; (destruct (n <=? 0); [exact Hl|]); [exact Hl|].
  destruct (s_read _ cb st x _) as [[st1 x1] r] eqn:Er. apply lz_read in Er; auto. destruct Er as [Er _].
  destruct r as [d [e|]| |]; try exact Er. apply IH. exact Er.
Qed.
Lemma left_discard S (B : budget S) K (cb : callback (s_ck S) K) : forall fuel st x n st' x' r,
  bl_ok B st -> discard_by_read S cb fuel st x n = (st', x', r) -> r <> Panic -> r <> Hang -> bl_ok B st' /\ (bl B st' <= bl B st)%nat.
Proof.
  induction fuel as [|f IH]; intros st x n st' x' r Hok H Hp Hh; cbn [discard_by_read] in H; (destruct (n <=? 0); [injection H as <- _ _; auto|]);
    [injection H as <- _ <-; contradiction|].
  destruct (s_read _ cb st x _) as [[st1 x1] r1] eqn:Er. destruct r1 as [d e| |]; [|injection H as _ _ <-; contradiction|injection H as _ _ <-; contradiction].
  destruct (bl_read B _ _ _ _ _ _ _ _ _ Hok Er) as (evs & _ & H2 & H3 & _).
  destruct e; [injection H as <- _ _; split; [exact H3|lia]|]. apply IH in H; auto. destruct H. split; [auto|lia].
Qed.

(** ** the copier *)
Lemma copy_loop_step {X} (E : cenv X) (P : X -> Prop) (Q : X -> res unit -> Prop) :
  (forall x pc, P x -> match copy_step E x pc with (x', inl _) => P x' | (x', inr r) => r <> Panic -> r <> Hang -> Q x' r end) ->
  (forall x, P x -> Q x (Ok tt)) ->
  forall fuel x pc, P x -> let '(x', r) := copy_loop E fuel x pc in r <> Panic -> r <> Hang -> Q x' r.
Proof.
  intros H1 H2. induction fuel as [|f IH]; intros x pc Hx; cbn [copy_loop]; (destruct (ce_stopped E x); [intros _ _; apply H2; exact Hx|]); [congruence|].
  specialize (H1 x pc Hx). destruct (copy_step E x pc) as [x' [pc'|r]]; [apply IH|]; exact H1.
Qed.
