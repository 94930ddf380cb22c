(** Props_source3.v -- C12-C18: decompressing sources. A stack [k] stands for
    the bytes [D] followed by the error [tm]: [stk_den] (Drive.v), which for a
    decompressing layer is [crun] (CodecSpec.v), the plain run of the
    decompressor over its whole input, with no notion of saving or of
    resuming. *)
From Verif Require Import Base Base_proofs Source Seek Decomp CodecSpec Counting Contract Seek_proofs Decomp_proofs
  Drive Stack_proofs SeekTrace_proofs SourceMisc_proofs ExCodec Props_source Props_source2.

(** ** C12 *)
Theorem C12_saving_invisible : forall pol data start size k D tm b byt p late rs st0 bb c st z ops st' evs bad,
  stk_den pol data start size k D tm b byt p late ->
  life pol data start size k byt rs st0 bb -> (forall x, c = Some x -> emitted pol data start size k byt x) ->
  s_resume (stk_source k) st0 c = (st, Ok z) ->
  Forall (op_ok byt) ops -> trace (stk_source k) st ops = (st', evs, bad) ->
  bad = false /\
  tdata evs = slice D (Z.to_nat z) (length (tdata evs)) /\ z + zlen (tdata evs) <= zlen D /\
  (forall ev, In ev evs -> te_err ev <> Some EReadyToSave) /\
  (* io.EOF only after everything *)
  (forall pre ev post, evs = pre ++ ev :: post -> te_err ev = Some EEof -> tm = EEof /\ z + zlen (tdata pre) + zlen (te_data ev) = zlen D).
Proof.
  intros pol data start size k D tm b byt p late rs st0 bb c st z ops st' evs bad Hden Hl Hc Hr Hops Ht.
  pose proof (stack_session pol data start size k D tm b byt p late Hden c rs st0 bb st (Ok z) Hl Hc Hr) as (Hz & Hzr & Hs & _).
  destruct (Hs ops st' evs bad Hops Ht) as [Hb Htr].
  destruct (tr_ok_data _ _ _ _ _ _ Htr ltac:(unfold zlen in *; lia)) as [D1 D2].
  assert (Htm : tm <> EReadyToSave).
  { destruct (stk_laws _ _ _ _ _ _ _ _ _ _ _ Hden) as (L & _). exact (lw_tm _ _ _ L). }
  split; [exact Hb|]. split; [exact D1|]. split; [unfold zlen in *; lia|]. split.
  - intros ev Hi He. apply in_split in Hi. destruct Hi as (pre & post & ->).
    apply tr_ok_at in Htr. destruct Htr as (_ & _ & _ & _ & H & _).
    destruct (H _ He) as [[H1 _]|(_ & _ & H1)]; congruence.
  - intros pre ev post -> He. apply tr_ok_at in Htr. destruct Htr as (_ & _ & _ & _ & H & _).
    destruct (H _ He) as [[H1 H2]|(_ & H1 & _)]; [|congruence]. split; [congruence|]. unfold zlen in *. lia.
Qed.

(** The whole stream is delivered, if the file can be read and one keeps
    reading. *)
Theorem C12_reaches_the_end : forall pol data start size k D tm b byt p late rs st0 bb c st r,
  stk_den pol data start size k D tm b byt p late ->
  life pol data start size k byt rs st0 bb -> (forall x, c = Some x -> emitted pol data start size k byt x) ->
  rs_good rs -> D <> [] -> s_resume (stk_source k) st0 c = (st, r) ->
  exists z, r = Ok z /\ exists n0, forall n sz st' evs bad, (n0 <= n)%nat -> (0 < sz)%nat ->
    trace (stk_source k) st (repeat (CRead sz) n) = (st', evs, bad) ->
    tdata evs = skipn (Z.to_nat z) D /\ exists ev, In ev evs /\ te_err ev = Some tm.
Proof.
  intros pol data start size k D tm b byt p late rs st0 bb c st r Hden Hl Hc Hg Hne Hr.
  pose proof (stack_session pol data start size k D tm b byt p late Hden c rs st0 bb st r Hl Hc Hr) as H.
  destruct r as [z|e| |]; [|destruct H as [H|[H _]]; contradiction|destruct H|destruct H].
  destruct H as (_ & _ & _ & H). exists z. auto.
Qed.

(** Non-vacuity, with a real save: the codec of ExCodec.v stacked on a seek
    source; the checkpoint is emitted, then used on the same and on another
    source object. *)
Definition ex_st0 : s_st (stk_source (ex_stk false false)) :=
  s_setssc (stk_source (ex_stk false false)) (stk_new (ex_stk false false) (ex_rs ex_in) 0 8).
Definition ex_st1 := fst (s_resume (stk_source (ex_stk false false)) ex_st0 None).
Notation ex_ops := [CRead 1; CWant; CRead 4; CRead 4; CReadByte; CRead 3; CRead 3].
Notation ex_run := (trace (stk_source (ex_stk false false)) ex_st1 ex_ops).

Lemma pair_snd {A B} (x : A * B) b : snd x = b -> x = (fst x, b).
Proof. destruct x. cbn. intros <-. reflexivity. Qed.

Lemma single_inj {A} (x y : A) : [x] = [y] -> x = y.
Proof. intros H. congruence. Qed.

Lemma ex_life0 : life false ex_in 0 8 (ex_stk false false) true (ex_rs ex_in) ex_st0 false.
Proof. apply LifeNew; [reflexivity|discriminate]. Qed.
Lemma ex_life1 : life false ex_in 0 8 (ex_stk false false) true (ex_rs ex_in) ex_st1 true.
Proof.
  eapply LifeResume with (c := None) (z := 0); [exact ex_life0|discriminate|].
  apply pair_snd. vm_compute. reflexivity.
Qed.
Example C12_example :
  map te_data (snd (fst ex_run)) = [s2b "a"; []; s2b "a"; s2b "bb"; s2b "c"; s2b "c"; []] /\
  map (fun ev => map (fun c => ck_off c) (te_cks ev)) (snd (fst ex_run)) = [[]; []; []; []; [4]; []; []].
Proof. vm_compute. split; reflexivity. Qed.

(** ** C13 *)
Theorem C13_checkpoints_resume : forall pol data start size k D tm b byt p late rs st0 bb c st r,
  stk_den pol data start size k D tm b byt p late ->
  (* any checkpoint that was ever emitted, on the same or another source object in any state *)
  emitted pol data start size k byt c -> life pol data start size k byt rs st0 bb ->
  s_resume (stk_source k) st0 (Some c) = (st, r) ->
  0 <= ck_off c <= zlen D /\ r <> Panic /\ r <> Hang /\ (rs_good rs -> D <> [] -> r = Ok (ck_off c)) /\
  (forall z, r = Ok z -> z = ck_off c /\
     (forall ops st' evs bad, Forall (op_ok byt) ops -> trace (stk_source k) st ops = (st', evs, bad) ->
        bad = false /\ tdata evs = firstn (length (tdata evs)) (skipn (Z.to_nat (ck_off c)) D) /\
        tr_ok D tm (~ rs_good rs) late (Z.to_nat (ck_off c)) evs) /\
     (rs_good rs -> exists n0, forall n sz st' evs bad, (n0 <= n)%nat -> (0 < sz)%nat ->
        trace (stk_source k) st (repeat (CRead sz) n) = (st', evs, bad) ->
        tdata evs = skipn (Z.to_nat (ck_off c)) D)).
Proof.
  intros pol data start size k D tm b byt p late rs st0 bb c st r Hden He Hl Hr.
  assert (Hc : forall x, Some c = Some x -> emitted pol data start size k byt x) by (intros x [= <-]; exact He).
  pose proof (stack_session pol data start size k D tm b byt p late Hden (Some c) rs st0 bb st r Hl Hc Hr) as H.
  assert (Hoff : 0 <= ck_off c <= zlen D).
  { destruct (stk_laws _ _ _ _ _ _ _ _ _ _ _ Hden) as (L & HF).
    destruct (life_ok pol data start size k D tm b byt p late L HF) as [_ Hem].
    exact (lw_ck_len _ _ _ L c (Hem _ He)). }
  split; [exact Hoff|].
  destruct r as [z|e| |]; [| |destruct H|destruct H].
  - destruct H as (Hz & _ & H1 & H2). split; [discriminate|]. split; [discriminate|]. split; [intros _ _; congruence|].
    intros z0 [= <-]. split; [exact Hz|]. rewrite <- Hz. split.
    + intros ops st' evs bad Ho Ht. destruct (H1 ops st' evs bad Ho Ht) as [Hb Htr]. split; [exact Hb|]. split; [|exact Htr].
      destruct (tr_ok_data _ _ _ _ _ _ Htr ltac:(unfold zlen in *; lia)) as [D1 D2]. exact D1.
    + intros Hg. destruct (H2 Hg) as (n0 & H3). exists n0. intros n sz st' evs bad Hn Hsz Ht. exact (proj1 (H3 _ _ _ _ _ Hn Hsz Ht)).
  - split; [discriminate|]. split; [discriminate|]. split; [intros Hg Hne; destruct H as [H|[H _]]; contradiction|]. discriminate.
Qed.

Definition ex_ev := nth 4 (snd (fst ex_run)) (MkTev CWant [] None []).
Lemma ex_ev_in : In ex_ev (snd (fst ex_run)).
Proof.
  assert (H : (4 < length (snd (fst ex_run)))%nat) by (vm_compute; repeat constructor).
  unfold ex_ev. generalize dependent (snd (fst ex_run)). intros l H. apply nth_In. exact H.
Qed.
Lemma emitted_trace pol data start size k byt rs st ops ev c :
  life pol data start size k byt rs st true -> Forall (op_ok byt) ops ->
  In ev (snd (fst (trace (stk_source k) st ops))) -> In c (te_cks ev) -> emitted pol data start size k byt c.
Proof.
  intros H1 H2 H3 H4. destruct (trace (stk_source k) st ops) as [[st' evs] bad] eqn:E. eapply Emitted; eauto.
Qed.
Lemma ex_ev_emitted c : In c (te_cks ex_ev) -> emitted false ex_in 0 8 (ex_stk false false) true c.
Proof.
  apply (emitted_trace false ex_in 0 8 (ex_stk false false) true (ex_rs ex_in) ex_st1
    ex_ops ex_ev c ex_life1).
  - repeat (apply Forall_cons; [vm_compute; first [reflexivity | exact Logic.I | lia]|]). apply Forall_nil.
  - exact ex_ev_in.
Qed.
Lemma map_single {A B} (f : A -> B) l y : map f l = [y] -> exists x, In x l /\ f x = y.
Proof. destruct l as [|x [|? ?]]; try discriminate. cbn. intros [= <-]. eauto. Qed.

Example C13_example : exists c, emitted false ex_in 0 8 (ex_stk false false) true c /\
  (ck_off c, snd (s_resume (stk_source (ex_stk false false)) ex_st0 (Some c)),
   tdata (snd (fst (trace (stk_source (ex_stk false false)) (fst (s_resume (stk_source (ex_stk false false)) ex_st0 (Some c))) [CRead 9; CRead 9; CRead 9]))))
  = (4, Ok 4, s2b "cc").
Proof.
  match goal with |- exists c, emitted _ _ _ _ _ _ _ /\ @?f c = ?y =>
    destruct (map_single f (te_cks ex_ev) y) as (c & Hc & Hf); [vm_compute; reflexivity|] end.
  exists c. split; [exact (ex_ev_emitted c Hc)|exact Hf].
Qed.

(** The same with a format that is read with io.ReadFull: here the two layers of
    [ex3_stk], whose meaning is given by [ex3_den]. *)
Definition ex3_st1 := fst (s_resume (stk_source ex3_stk) (s_setssc (stk_source ex3_stk) (stk_new ex3_stk (ex_rs ex3_in) 0 14)) None).
Example C13_stored_example :
  stk_den false ex3_in 0 14 ex3_stk (s2b "xyzt") EEof (20 + 4) true true false /\
  life false ex3_in 0 14 ex3_stk true (ex_rs ex3_in) ex3_st1 true /\
  map te_data (snd (fst (trace (stk_source ex3_stk) ex3_st1 [CWant; CRead 9; CRead 9; CRead 9; CRead 9]))) = [[]; s2b "xy"; s2b "zt"; []; []] /\
  map (fun ev => map (fun c => (ck_off c, snd (s_resume (stk_source ex3_stk) (stk_new ex3_stk (ex_rs ex3_in) 0 14) (Some c)))) (te_cks ev))
    (snd (fst (trace (stk_source ex3_stk) ex3_st1 [CWant; CRead 9; CRead 9; CRead 9; CRead 9]))) = [[]; []; []; [(4, Ok 4)]; []].
Proof.
  split; [exact ex3_den|]. split.
  - eapply LifeResume with (c := None) (z := 0); [apply LifeNew; [reflexivity|discriminate]|discriminate|].
    apply pair_snd. vm_compute. reflexivity.
  - split; vm_compute; reflexivity.
Qed.

(** ** C14 *)

(** A decompressing layer over any stack [s], newly constructed. The
    checkpoint is of another kind, or its decompressor state cannot be restored,
    or it points before the position that its own inner checkpoint leads to (so
    the two do not line up); its inner checkpoint is any checkpoint that the
    inner stack can emit. Then Resume either reports an error or starts from the
    beginning. An error means that the file cannot be read, that there is no
    data at all, or that the checkpoint points at or beyond the end of the
    compressed input. *)
Theorem C14_unusable_checkpoint : forall pol data start size C cfg fuel s ID itm b pi li N D tm byt rs x st r,
  (* the layer and the stack below it, as in [stk_den] *)
  stk_den pol data start size s ID itm b true pi li ->
  crun C N (cd_init C) ID itm = Some (D, tm) -> tm <> EReadyToSave -> (N < fuel)%nat -> (b < fuel)%nat ->
  saves_ok C -> starts_by_reading C ->
  (pi = true \/ saves_before_end C N (cd_init C) ID) ->
  stk_flag byt (cd_eager C = false /\ no_empty_block C N (cd_init C) ID false) ->
  rs_of data rs -> stk_flag pol (rs_separate rs) ->
  (ck_data x = None \/
   exists dk, ck_data x = Some dk /\
     (forall ic, dk_src C (stk_source s) dk = Some ic -> emitted pol data start size s true ic) /\
     (dk_snap C (stk_source s) dk = None \/
      dk_roff C (stk_source s) dk < match dk_src C (stk_source s) dk with Some ic => ck_off ic | None => 0 end)) ->
  let k := KDec C cfg fuel s in
  s_resume (stk_source k) (s_setssc (stk_source k) (stk_new k rs start size)) (Some x) = (st, r) ->
  match r with
  | Ok z => z = 0 /\ forall ops st' evs bad, Forall (op_ok byt) ops -> trace (stk_source k) st ops = (st', evs, bad) ->
      bad = false /\ tr_ok D tm (~ rs_good rs) (cd_eager_save C) 0 evs
  | Err _ => ~ rs_good rs \/ (D = [] /\ tm <> EEof) \/ exists dk, ck_data x = Some dk /\ zlen ID <= dk_roff C (stk_source s) dk
  | _ => False
  end.
Proof.
  intros pol data start size C cfg fuel s ID itm b pi li N D tm byt rs x st r Hs Hrun Htm HN Hb Hsav Hpull Hse Hbyt Hd Hp Hx k Hr.
  destruct (stk_laws _ _ _ _ _ _ _ _ _ _ _ Hs) as (LI & F).
  destruct (life_ok pol data start size s ID itm b true pi li LI F) as [_ Hem].
  pose proof F as [F1 F2 F3 F4 F5 F6 F7]. subst b pi.
  set (i0 := stk_new s rs start size) in *.
  destruct (lw_setssc _ _ _ LI i0 (F5 rs Hd Hp)) as (W1 & _ & W3 & W4).
  pose proof (resume_fallback C cfg (stk_source s) fuel ID itm LI N D tm (F4 eq_refl) Hrun HN Hb Hsav Hse Htm Hpull
    (s_setssc (stk_source k) (stk_new k rs start size)) x st r) as HR.
  assert (HX : ck_data x = None \/
     exists dk, ck_data x = Some dk /\ (forall ic, dk_src C (stk_source s) dk = Some ic -> lw_ck LI ic) /\
       (dk_snap C (stk_source s) dk = None \/ dk_roff C (stk_source s) dk < match dk_src C (stk_source s) dk with Some ic => ck_off ic | None => 0 end)).
  { destruct Hx as [Hx|(dk & X1 & X2 & X3)]; [left; exact Hx|right]. exists dk. splits; auto. }
  assert (Hwf : dc_wf C (stk_source s) ID itm LI (s_setssc (stk_source k) (stk_new k rs start size))).
  { split; [exact W1|intros _; exact (W3 (F6 rs Hd))]. }
  assert (Hq : dc_quiet C (stk_source s) ID itm LI (s_setssc (stk_source k) (stk_new k rs start size))).
  { split; [exact (W3 (F6 rs Hd))|]. intros sr Hsr. discriminate Hsr. }
  specialize (HR Hwf Hq HX Hr).
  destruct r as [z|e| |]; try exact HR.
  - destruct HR as (-> & m & Hat & Hcl). split; [reflexivity|]. intros ops st' evs bad Ho Ht.
    match type of Hat with lw_at ?L0 _ _ _ => set (L := L0) in * end.
    assert (HBL : byt = true -> byte_law L).
    { intros Hbt. destruct (Hbyt Hbt) as [B1 B2]. apply dcomp_byte_law; [exact B1|exact B2]. }
    destruct (trace_ok L byt HBL ops st _ m st' evs bad Ho Hat Ht) as (Hbad & Htr & _). split; [exact Hbad|].
    eapply tr_ok_weaken; [|exact Htr]. intros Hn Hg. apply Hn, Hcl, W4. exact (F7 rs Hd Hg).
  - destruct HR as [H|[H|H]]; [left|right; left; exact H|right; right; exact H]. intros Hg. apply H, W4. exact (F7 rs Hd Hg).
Qed.

(** Non-vacuity: a foreign checkpoint and one with a lost decompressor state. *)
Example C14_example :
  snd (s_resume (stk_source (ex_stk false false)) ex_st0 (Some (MkCk 3 None))) = Ok 0 /\
  let x := MkCk 4 (Some (MkDck (ex_codec false false) seek_source 4 None 3 4 None)) in
  snd (s_resume (stk_source (ex_stk false false)) ex_st0 (Some x)) = Ok 0 /\
  tdata (snd (fst (trace (stk_source (ex_stk false false)) (fst (s_resume (stk_source (ex_stk false false)) ex_st0 (Some x))) [CRead 9; CRead 9]))) = s2b "aabb".
Proof. vm_compute. splits; reflexivity. Qed.

(** ** C15 *)

(** On stacks whose decompressors return io.EOF separately from data and have
    no empty blocks (the conditions [byt] of [stk_den]), a successful ReadByte
    delivers the next byte, and a failing one reports the end or a fault. *)
Theorem C15_readbyte_partial : forall pol data start size k D tm b p late rs st0 bb c st z ops st' evs bad,
  stk_den pol data start size k D tm b true p late ->
  life pol data start size k true rs st0 bb -> (forall x, c = Some x -> emitted pol data start size k true x) ->
  s_resume (stk_source k) st0 c = (st, Ok z) ->
  Forall (op_ok true) ops -> trace (stk_source k) st ops = (st', evs, bad) ->
  bad = false /\
  forall pre ev post, evs = pre ++ ev :: post -> te_op ev = CReadByte ->
    (te_err ev = None -> exists x, te_data ev = [x] /\ nth_error D (Z.to_nat z + length (tdata pre)) = Some x) /\
    (forall e, te_err ev = Some e -> te_data ev = [] /\
       (e = tm /\ z + zlen (tdata pre) = zlen D \/ ~ rs_good rs /\ e <> EEof /\ e <> EReadyToSave)).
Proof.
  intros pol data start size k D tm b p late rs st0 bb c st z ops st' evs bad Hden Hl Hc Hr Hops Ht.
  pose proof (stack_session pol data start size k D tm b true p late Hden c rs st0 bb st (Ok z) Hl Hc Hr) as (Hz & Hzr & Hs & _).
  destruct (Hs ops st' evs bad Hops Ht) as [Hb Htr]. split; [exact Hb|].
  intros pre ev post He Hop. rewrite He in Htr. apply tr_ok_at in Htr. destruct Htr as (H1 & H2 & H3 & H4 & H5 & _).
  split.
  - intros Hn. specialize (H4 Hop Hn). destruct (te_data ev) as [|x [|y l]] eqn:Hd; try discriminate H4.
    exists x. split; [reflexivity|]. cbn [length] in *. unfold slice in H1.
    set (q := (Z.to_nat z + length (tdata pre))%nat) in *.
    assert (Hh : hd_error (skipn q D) = Some x) by (destruct (skipn q D) as [|y l]; [discriminate H1|injection H1 as ->; reflexivity]).
    rewrite <- Hh. clearbody q. clear. revert q. induction D as [|a D0 IH]; intros [|q]; cbn; auto.
  - intros e Hee.
    assert (Hd : te_data ev = []).
    { assert (Hin : In ev evs) by (rewrite He; apply in_or_app; right; left; reflexivity).
      clear -Ht Hop Hee Hin. revert st st' evs bad Ht Hin. induction ops as [|op ops IH]; intros st st' evs bad; cbn [trace].
      - intros [= <- <- <-] [].
      - destruct op as [n| |].
        + destruct (s_read (stk_source k) rec_cb st [] n) as [[s1 k1] [d e0| |]].
          2,3: intros [= <- <- <-] [].
          destruct (trace (stk_source k) s1 ops) as [[s2 e2] b2] eqn:E. intros [= <- <- <-] [<- | Hi]; [discriminate Hop|eauto].
        + destruct (s_readbyte (stk_source k) rec_cb st []) as [[s1 k1] [d e0| |]].
          2,3: intros [= <- <- <-] [].
          destruct (trace (stk_source k) s1 ops) as [[s2 e2] b2] eqn:E. intros [= <- <- <-] [<- | Hi]; [|eauto].
          cbn in *. subst e0. reflexivity.
        + destruct (trace (stk_source k) _ ops) as [[s2 e2] b2] eqn:E. intros [= <- <- <-] [<- | Hi]; [discriminate Hop|eauto]. }
    split; [exact Hd|]. rewrite Hd in *. cbn [length] in *.
    destruct (H5 _ Hee) as [[H6 H7]|H6]; [left|right; exact H6]. split; [exact H6|]. unfold zlen in *. lia.
Qed.

Example C15_example : exists st, trace (stk_source (ex_stk false false)) ex_st1 [CReadByte; CWant; CReadByte; CReadByte; CReadByte; CReadByte; CReadByte; CReadByte] = st /\
  map te_data (snd (fst st)) = [s2b "a"; []; s2b "a"; s2b "b"; s2b "b"; s2b "c"; s2b "c"; []].
Proof. eexists. split; [reflexivity|]. vm_compute. reflexivity. Qed.

(** Without those conditions the property is false. First, a stream with an
    empty block, and two save requests that both become ready during one
    ReadByte: it returns a byte that is not in the stream, with a nil error. *)
Definition exn_in : bytes := s2b "HBaBbNE".
Definition exn_st0 := s_setssc (stk_source (ex_stk false false)) (stk_new (ex_stk false false) (ex_rs exn_in) 0 7).
Theorem C15_phantom_byte_refuted :
  crun (ex_codec false false) 30 (cd_init (ex_codec false false)) exn_in EEof = Some (s2b "aabb", EEof) /\
  snd (s_resume (stk_source (ex_stk false false)) exn_st0 None) = Ok 0 /\
  let evs := snd (fst (trace (stk_source (ex_stk false false)) (fst (s_resume (stk_source (ex_stk false false)) exn_st0 None))
     [CReadByte; CReadByte; CWant; CReadByte; CWant; CReadByte; CReadByte])) in
  map (fun ev => te_err ev) evs = [None; None; None; None; None; None; None] /\
  map te_data evs = [s2b "a"; s2b "a"; []; s2b "b"; []; s2b "b"; s2b "b"].
Proof. vm_compute. splits; reflexivity. Qed.

(** Second, a decompressor that returns io.EOF together with its last data:
    the last byte arrives with io.EOF, that is without the nil error, and a
    client that (like the Go convention for ReadByte) discards it loses it. *)
Theorem C15_last_byte_with_eof_refuted :
  let k := ex_stk true false in
  let st0 := s_setssc (stk_source k) (stk_new k (ex_rs (s2b "HBaLb")) 0 5) in
  crun (ex_codec true false) 30 (cd_init (ex_codec true false)) (s2b "HBaLb") EEof = Some (s2b "aabb", EEof) /\
  snd (s_resume (stk_source k) st0 None) = Ok 0 /\
  let evs := snd (fst (trace (stk_source k) (fst (s_resume (stk_source k) st0 None))
     [CReadByte; CReadByte; CReadByte; CReadByte; CReadByte])) in
  map (fun ev => te_err ev) evs = [None; None; None; Some EEof; Some EEof] /\
  tdata evs = s2b "aab".
Proof. vm_compute. splits; reflexivity. Qed.

(** ** C16 *)

(** Input that the decompressor rejects, or that ends too early: the stack
    stands for a prefix followed by an error [tm] other than io.EOF; then io.EOF
    is never returned, whatever is called. *)
Theorem C16_never_a_clean_end : forall pol data start size k D tm b byt p late rs st0 bb c st z ops st' evs bad,
  stk_den pol data start size k D tm b byt p late -> tm <> EEof ->
  life pol data start size k byt rs st0 bb -> (forall x, c = Some x -> emitted pol data start size k byt x) ->
  s_resume (stk_source k) st0 c = (st, Ok z) ->
  Forall (op_ok byt) ops -> trace (stk_source k) st ops = (st', evs, bad) ->
  bad = false /\ tdata evs = slice D (Z.to_nat z) (length (tdata evs)) /\
  (forall ev, In ev evs -> te_err ev <> Some EEof) /\
  (* and the error does come *)
  (rs_good rs -> exists n0, forall n sz st' evs bad, (n0 <= n)%nat -> (0 < sz)%nat ->
     trace (stk_source k) st (repeat (CRead sz) n) = (st', evs, bad) -> exists ev, In ev evs /\ te_err ev = Some tm).
Proof.
  intros pol data start size k D tm b byt p late rs st0 bb c st z ops st' evs bad Hden Htm Hl Hc Hr Hops Ht.
  destruct (C12_saving_invisible _ _ _ _ _ _ _ _ _ _ _ _ _ _ _ _ _ _ _ _ _ Hden Hl Hc Hr Hops Ht) as (H1 & H2 & _ & _ & H3).
  split; [exact H1|]. split; [exact H2|]. split.
  - intros ev Hi He. apply in_split in Hi. destruct Hi as (pre & post & Hi). destruct (H3 _ _ _ Hi He) as [H _]. contradiction.
  - intros Hg.
    pose proof (stack_session pol data start size k D tm b byt p late Hden c rs st0 bb st (Ok z) Hl Hc Hr) as (_ & _ & _ & H).
    destruct (H Hg) as (n0 & Hn). exists n0. intros n sz st2 evs2 bad2 A1 A2 A3. exact (proj2 (Hn _ _ _ _ _ A1 A2 A3)).
Qed.

(** Truncation: cut the input of a valid stream anywhere (the decompressor needs
    all its input, [needs_all], CodecSpec.v). What it stands for is then a
    prefix of the decoded stream followed by io.ErrUnexpectedEOF. *)
Theorem C16_truncated : forall C cfg fuel inp N D cut rs st0 bb ops st z st' evs bad,
  crun C N (cd_init C) inp EEof = Some (D, EEof) -> needs_all C N (cd_init C) inp -> (cut < length inp)%nat ->
  (N < fuel)%nat -> (length inp < fuel)%nat -> zlen inp < two63 -> saves_ok C -> starts_by_reading C ->
  let k := KDec C cfg fuel KSeek in let data := firstn cut inp in
  life true data 0 (zlen data) k false rs st0 bb ->
  s_resume (stk_source k) st0 None = (st, Ok z) -> Forall (op_ok false) ops ->
  trace (stk_source k) st ops = (st', evs, bad) ->
  bad = false /\ z = 0 /\ tdata evs = firstn (length (tdata evs)) D /\
  forall ev e, In ev evs -> te_err ev = Some e -> e = EUnexpectedEof \/ ~ rs_good rs /\ e <> EEof.
Proof.
  intros C cfg fuel inp N D cut rs st0 bb ops st z st' evs bad Hrun Hall Hcut HN Hf Hsz Hsav Hpull k data Hl Hr Hops Ht.
  destruct (crun_truncated C N (cd_init C) inp D cut Hrun Hall Hcut) as (D' & Hrun' & HD').
  assert (Hlen : length data = cut) by (subst data; rewrite firstn_length; lia).
  assert (Hsl : slice data (Z.to_nat 0) (Z.to_nat (zlen data)) = data).
  { unfold slice, zlen. cbn [Z.to_nat skipn]. rewrite Nat2Z.id. apply firstn_all. }
  assert (Hden : stk_den true data 0 (zlen data) k D' EUnexpectedEof (N + length D') false (negb (cd_eager C)) (cd_eager_save C)).
  { subst k. eapply (DenDec true data 0 (zlen data) C cfg fuel KSeek data EEof (length data) true false N D' EUnexpectedEof false).
    - pose proof (DenSeek true data 0 (zlen data) ltac:(lia) ltac:(unfold zlen; lia) ltac:(unfold zlen in *; lia)) as HS.
      rewrite Hsl in HS. exact HS.
    - exact Hrun'.
    - discriminate.
    - exact HN.
    - lia.
    - exact Hsav.
    - exact Hpull.
    - left. reflexivity.
    - discriminate. }
  pose proof (stack_session true data 0 (zlen data) k D' EUnexpectedEof _ false _ _ Hden None rs st0 bb st (Ok z) Hl ltac:(discriminate) Hr) as (Hz & Hzr & Hs & _).
  destruct (Hs ops st' evs bad Hops Ht) as [Hb Htr]. subst z. change (Z.to_nat 0) with 0%nat in Htr.
  destruct (tr_ok_data _ _ _ _ _ _ Htr ltac:(lia)) as [D1 D2].
  split; [exact Hb|]. split; [reflexivity|]. split.
  - etransitivity; [exact D1|]. unfold slice. cbn [skipn]. rewrite HD', firstn_firstn. rewrite Nat.min_l by exact D2. reflexivity.
  - intros ev e Hi He. apply in_split in Hi. destruct Hi as (pre & post & ->).
    apply tr_ok_at in Htr. destruct Htr as (_ & _ & _ & _ & H & _).
    destruct (H _ He) as [[H1 _]|(H1 & H2 & _)]; auto.
Qed.

Example C16_example :
  needs_all (ex_codec false false) 30 X0 ex_in /\
  let st0 := s_setssc (stk_source (ex_stk false false)) (stk_new (ex_stk false false) (ex_rs (firstn 6 ex_in)) 0 6) in
  let evs := snd (fst (trace (stk_source (ex_stk false false)) (fst (s_resume (stk_source (ex_stk false false)) st0 None)) [CRead 3; CRead 3; CRead 3; CRead 3])) in
  map te_data evs = [s2b "aa"; s2b "bb"; []; []] /\ map (fun ev => te_err ev) evs = [None; None; Some EUnexpectedEof; Some EUnexpectedEof].
Proof. split; [vm_compute; reflexivity|]. vm_compute. split; reflexivity. Qed.

(** ** C17 *)

(** Refuted for seek sources: the error of the save consumer is dropped. *)
Definition fail_cb {CK} (e : gerr) : callback CK nat := fun _ k => (Datatypes.S k, CErr e).
Theorem C17_seek_swallows_refuted :
  exists st, seek_resume (seek_setssc (seek_from_bytes (s2b "hello"))) None = (st, Ok 0) /\
  let '(_, calls, r) := seek_read (fail_cb EIO) (seek_want st) 0%nat 3 in
  calls = 1%nat /\ r = RRet (s2b "hel") None.
Proof. eexists. split; [cbn; reflexivity|]. vm_compute. split; reflexivity. Qed.

(** Refuted for ReadByte of a decompressing source. *)
Theorem C17_readbyte_swallows_refuted :
  let st := fst (fst (trace (stk_source (ex_stk false false)) ex_st1 [CReadByte; CWant; CReadByte; CReadByte; CReadByte])) in
  let '(_, calls, r) := s_readbyte (stk_source (ex_stk false false)) (fail_cb EIO) st 0%nat in
  calls = 1%nat /\ r = BRet "c"%char None.
Proof. vm_compute. split; reflexivity. Qed.

(** It does hold for Read of every decompressing source, in every state and for
    every consumer: if Save was called and failed, Read returns the error. *)
Theorem C17_failing_consumer_reported_partial : forall C cfg I fuel e s calls n s' calls' r,
  dcomp_read C cfg I fuel (fail_cb e) s calls n = (s', calls', r) ->
  (calls <= calls' <= Datatypes.S calls)%nat /\
  (calls' <> calls -> exists d, r = RRet d (Some e)).
Proof.
  intros C cfg I fuel e s calls n s' calls' r. unfold dcomp_read.
  destruct (ds_sr C I s) as [sr|]; [|intros [= <- <- <-]; split; [lia|congruence]].
  destruct (sr_read C I fuel fuel (ds_in C I s) (ds_sck C I s) sr n) as [[[i1 sck1] sr1] [d e0| |]];
    try (intros [= <- <- <-]; split; [lia|congruence]).
  destruct e0 as [[]|]; try (intros [= <- <- <-]; split; [lia|congruence]).
  destruct sck1 as [c|]; [|intros [= <- <- <-]; split; [lia|congruence]].
  destruct (ds_ssc C I s); cbn [negb]; [|intros [= <- <- <-]; split; [lia|congruence]].
  destruct (cd_savable C (sr_d C sr1)); cbn [negb]; [|intros [= <- <- <-]; split; [lia|congruence]].
  cbv beta delta [fail_cb]. cbn iota zeta. intros [= <- <- <-]. split; [lia|]. intros _. eauto.
Qed.

Example C17_example :
  let st := fst (fst (trace (stk_source (ex_stk false false)) ex_st1 [CReadByte; CWant; CReadByte; CReadByte; CReadByte])) in
  let '(_, calls, r) := s_read (stk_source (ex_stk false false)) (fail_cb EIO) st 0%nat 5 in
  calls = 1%nat /\ r = RRet [] (Some EIO).
Proof. vm_compute. split; reflexivity. Qed.

(** ** C18 *)

(** Refuted: a save requested before the first Resume makes Resume of a gzip
    source panic (the header is read while the reader is still nil). *)
Theorem C18_wantsave_before_resume_refuted :
  let k := ex_stk false false in
  snd (s_resume (stk_source k) (s_want (stk_source k) ex_st0) None) = Panic.
Proof. vm_compute. reflexivity. Qed.

(** After a successful Resume, WantSave can be called at any time on any
    stack: nothing panics or hangs; on a seek source even before Resume. *)
Theorem C18_wantsave_safe_partial :
  (forall pol data start size k D tm b byt p late rs st ops st' evs bad,
     stk_den pol data start size k D tm b byt p late -> life pol data start size k byt rs st true ->
     Forall (op_ok byt) ops -> trace (stk_source k) st ops = (st', evs, bad) ->
     bad = false /\
     (forall c st2 r, (forall x, c = Some x -> emitted pol data start size k byt x) ->
        s_resume (stk_source k) st' c = (st2, r) -> r <> Panic /\ r <> Hang)) /\
  (forall data start size s0 pre c0 st r, seek_over data start size s0 -> ss_br s0 = None -> (forall x, c0 = Some x -> ck_off x <= size) ->
     seek_resume (fst (fst (trace seek_source s0 pre))) c0 = (st, r) ->
     r <> Panic /\ r <> Hang /\
     (forall z ops, r = Ok z -> snd (trace seek_source st ops) = false)).
Proof.
  split.
  - intros pol data start size k D tm b byt p late rs st ops st' evs bad Hden Hl Hops Ht.
    destruct (stk_laws _ _ _ _ _ _ _ _ _ _ _ Hden) as (L & HF).
    destruct (life_ok pol data start size k D tm b byt p late L HF) as [Hlife Hem].
    destruct (Hlife _ _ _ Hl) as (_ & _ & H2). destruct (H2 eq_refl) as (o & m & Hat).
    destruct (trace_ok L byt (sf_byte _ _ _ _ _ _ _ _ _ _ _ _ HF) ops st _ m st' evs bad Hops Hat Ht) as (Hb & _).
    split; [exact Hb|]. intros c st2 r Hc Hr.
    pose proof (stack_session pol data start size k D tm b byt p late Hden c rs st' true st2 r (LifeRun _ _ _ _ _ _ _ _ _ _ _ _ Hl Hops Ht) Hc Hr) as H.
    destruct r; try (destruct H; fail); split; discriminate.
  - intros data start size s0 pre c0 st r Ho Hbr Hc0 Hr.
    assert (Hr2 : r <> Panic /\ r <> Hang).
    { clear -Hr. unfold seek_resume in Hr. destruct c0 as [x|]; [destruct (ck_off x <? 0); [inversion Hr; split; discriminate|]|];
        destruct (rs_seek _ _) as [? [?|]]; inversion Hr; split; discriminate. }
    split; [apply Hr2|]. split; [apply Hr2|]. intros z ops ->.
    assert (Hpre : forall pre s, seek_over data start size s -> ss_br s = None -> seek_over data start size (fst (fst (trace seek_source s pre)))).
    { clear. induction pre as [|op pre IH]; intros s Hs Hb; [exact Hs|].
      destruct (never_resumed_reads KSeek s Hb) as (R1 & R2 & R3 & R4). cbn [stk_source] in *.
      cbn [trace]. destruct op as [n| |].
      - rewrite R1. specialize (IH s Hs Hb). destruct (trace seek_source s pre) as [[s2 e2] b2]. exact IH.
      - rewrite R2. specialize (IH s Hs Hb). destruct (trace seek_source s pre) as [[s2 e2] b2]. exact IH.
      - specialize (IH (seek_want s) Hs Hb). cbn [s_want seek_source] in *. destruct (trace seek_source (seek_want s) pre) as [[s2 e2] b2]. exact IH. }
    specialize (Hpre pre s0 Ho Hbr). set (s1 := fst (fst (trace seek_source s0 pre))) in *.
    assert (Hc1 : forall x, c0 = Some x -> 0 <= ck_off x <= size).
    { intros x Hx. split; [|auto]. subst c0. unfold seek_resume in Hr. destruct (ck_off x <? 0) eqn:Hn; [discriminate|lia]. }
    destruct (seek_resumed _ _ _ _ _ _ _ Hpre Hc1 Hr) as (_ & _ & m & Hat).
    destruct (trace seek_source st ops) as [[st' evs] bad] eqn:Ht. pose proof Ho as (_ & _ & _ & _ & O5 & _).
    exact (proj1 (seek_trace_full data start size false O5 ops st _ m st' evs bad Hat Ht)).
Qed.

Example C18_example : snd (trace (stk_source (ex_stk false false)) ex_st1 [CWant; CWant; CRead 1; CWant; CReadByte; CWant; CRead 9; CWant; CRead 9]) = false.
Proof. vm_compute. reflexivity. Qed.

(** Non-vacuity of C11: skip two bytes in the middle of a compressed stream
    (with a save pending); and skipping beyond the end fails. *)
Example C11_example :
  let st := fst (fst (trace (stk_source (ex_stk false false)) ex_st1 [CRead 1; CWant])) in
  let '(st2, cks, r) := discard_by_read (stk_source (ex_stk false false)) rec_cb 100 st [] 3 in
  r = Ok tt /\ map (fun ev => te_data ev) (snd (fst (trace (stk_source (ex_stk false false)) st2 [CRead 3; CRead 3]))) = [[]; s2b "cc"] /\
  snd (discard_by_read (stk_source (ex_stk false false)) rec_cb 100 st [] 6) = Err (with_stack EEof).
Proof. vm_compute. splits; reflexivity. Qed.
