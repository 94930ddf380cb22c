(** Props_saves.v -- property C69: never more checkpoints than requests. *)
From Verif Require Import Base Base_proofs Source Seek Decomp CodecSpec Contract Drive Stack_proofs Copier Sink Misc Reenter Reenter_proofs Saves_proofs ExCodec.

(** What a client may do with a source object, in any order and with any arguments. *)
Inductive lop (k : stk) := LConsumer | LResume (c : option (sckpt (s_ck (stk_source k)))) | LUse (o : cop).
Arguments LConsumer {k}.
Arguments LResume {k} c.
Arguments LUse {k} o.

(** The checkpoints that the consumer receives (up to a call that panics or does not return). *)
Fixpoint lsaves (k : stk) (st : s_st (stk_source k)) (ops : list (lop k)) : list (sckpt (s_ck (stk_source k))) :=
  match ops with
  | [] => []
  | LConsumer :: ops' => lsaves k (s_setssc (stk_source k) st) ops'
  | LResume c :: ops' =>
      match s_resume (stk_source k) st c with
      | (st', Ok _) | (st', Err _) => lsaves k st' ops'
      | _ => []
      end
  | LUse CWant :: ops' => lsaves k (s_want (stk_source k) st) ops'
  | LUse (CRead n) :: ops' =>
      match s_read (stk_source k) rec_cb st [] n with
      | (st', cks, RRet _ _) => cks ++ lsaves k st' ops'
      | _ => []
      end
  | LUse CReadByte :: ops' =>
      match s_readbyte (stk_source k) rec_cb st [] with
      | (st', cks, BRet _ _) => cks ++ lsaves k st' ops'
      | _ => []
      end
  end.
Definition wants {k} (ops : list (lop k)) : nat :=
  length (filter (fun o => match o with LUse CWant => true | _ => false end) ops).

Lemma lsaves_left k : forall ops st, bl_ok (stk_budget k) st -> (length (lsaves k st ops) <= bl (stk_budget k) st + wants ops)%nat.
Proof.
  induction ops as [|[|c|[n| |]] ops IH]; intros st Hok; cbn [lsaves wants filter length]; try (change (length (filter _ ops)) with (wants ops)).
  - lia.
  - destruct (bl_setssc (stk_budget k) st Hok) as [H1 H2]. specialize (IH _ H1). lia.
  - destruct (s_resume (stk_source k) st c) as [st' r] eqn:E.
    destruct r as [z|e| |]; try (cbn [length]; lia);
      destruct (bl_resume (stk_budget k) st c st' _ Hok E ltac:(discriminate) ltac:(discriminate)) as [H1 H2]; specialize (IH _ H1); lia.
  - destruct (s_read (stk_source k) rec_cb st [] n) as [[st' cks] [d e| |]] eqn:E; try (cbn [length]; lia).
    destruct (bl_read (stk_budget k) _ rec_cb st [] n st' cks d e Hok E) as (evs & H1 & H2 & H3 & _).
    destruct (rec_calls _ _ _ H1) as [-> _]. cbn [app]. rewrite app_length, map_length. specialize (IH _ H3). lia.
  - destruct (s_readbyte (stk_source k) rec_cb st []) as [[st' cks] [d e| |]] eqn:E; try (cbn [length]; lia).
    destruct (bl_readbyte (stk_budget k) _ rec_cb st [] st' cks d e Hok E) as (evs & H1 & H2 & H3 & _).
    destruct (rec_calls _ _ _ H1) as [-> _]. cbn [app]. rewrite app_length, map_length. specialize (IH _ H3). lia.
  - destruct (bl_want (stk_budget k) st Hok) as [H1 H2]. specialize (IH _ H1). lia.
Qed.

(** C69. Whatever the compressed data, the storage and the checkpoints given to Resume, a
    source of any kind makes at most as many checkpoints as WantSave was called, at any
    time of its life. *)
Theorem C69_saves_requested k rs start size ops :
  (length (lsaves k (stk_new k rs start size) ops) <= wants ops)%nat.
Proof.
  destruct (stk_new_budget rs start size k) as [H1 H2]. pose proof (lsaves_left k ops _ H1). lia.
Qed.

(** Non-vacuity: the bound is reached, across a second Resume; without a consumer
    there is nothing; requests made in the same block give one checkpoint. *)
Definition sv_ops : list (lop (ex_stk false false)) :=
  [LConsumer; LResume None; LUse (CRead 1); LUse CWant; LUse (CRead 3); LUse (CRead 3); LUse (CRead 3);
   LResume None; LUse (CRead 1); LUse CWant; LUse (CRead 3); LUse (CRead 3); LUse (CRead 3)].
Definition sv_offs (ops : list (lop (ex_stk false false))) : list Z :=
  map (fun c => ck_off c) (lsaves (ex_stk false false) (stk_new (ex_stk false false) (ex_rs ex_in) 0 8) ops).
Example C69_example : (sv_offs sv_ops = [4; 4]) /\ wants sv_ops = 2%nat /\ sv_offs (tl sv_ops) = [] /\
  sv_offs [LConsumer; LResume None; LUse CWant; LUse CWant; LUse (CRead 3); LUse (CRead 3); LUse (CRead 3); LUse (CRead 3)] = [4].
Proof. splits; vm_compute; reflexivity. Qed.
