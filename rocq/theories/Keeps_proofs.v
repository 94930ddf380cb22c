(** Keeps_proofs.v -- what a Read and a copy can change in the state of the caller. *)
From Verif Require Import Base Base_proofs Source Seek Decomp Drive Copier.

(** A Read changes the state of the save consumer only by calling it. *)
Lemma stk_read_keeps k {K} (cb : callback (s_ck (stk_source k)) K) (P : K -> Prop) :
  (forall c x, P x -> P (fst (cb c x))) ->
  forall st x n, P x -> P (snd (fst (s_read (stk_source k) cb st x n))).
Proof.
  intros Hcb st x n Hx. destruct k as [|C cfg fuel s].
  - change (P (snd (fst (seek_read cb st x n)))). unfold seek_read.
    destruct (ss_br st); [|exact Hx]. destruct (n =? 0)%nat; [exact Hx|].
    destruct (_ =? 0); [exact Hx|]. destruct (_ && _); [exact Hx|].
    assert (H1 : P (snd (fst (seek_handle_save cb st x)))).
    { unfold seek_handle_save. destruct (ss_want st); [|exact Hx]. destruct (ss_ssc st); [|exact Hx].
      specialize (Hcb (MkCk (ss_off st) None) x Hx). destruct (cb _ x). exact Hcb. }
    destruct (seek_handle_save cb st x) as [[s1 k1] r]. cbn [fst snd] in H1.
    destruct r; destruct (ss_br s1); try exact H1; destruct (b_read _ _ _) as [[[? ?] ?] ?]; exact H1.
  - change (P (snd (fst (dcomp_read C cfg (stk_source s) fuel cb st x n)))). unfold dcomp_read.
    destruct (ds_sr C (stk_source s) st); [|exact Hx].
    destruct (sr_read _ _ _ _ _ _ _ _) as [[[i1 sck1] sr1] r]. destruct r as [d err| |]; try exact Hx.
    destruct err as [e|]; [|exact Hx]. destruct e; try exact Hx.
    destruct sck1; [|exact Hx]. destruct (negb _); [exact Hx|]. destruct (negb _); [exact Hx|].
    match goal with |- context [cb ?c x] => specialize (Hcb c x Hx); destruct (cb c x) as [k1 cr] end.
    destruct cr; exact Hcb.
Qed.

Lemma copy_loop_keeps {X} (E : cenv X) (P : X -> Prop) :
  (forall x n, P x -> P (fst (ce_read E x n))) -> (forall x d, P x -> P (fst (ce_write E x d))) ->
  (forall x n, P x -> P (fst (ce_should E x n))) -> (forall x, P x -> P (ce_want E x)) -> (forall x, P x -> P (ce_emit E x)) ->
  forall fuel x pc, P x -> P (fst (copy_loop E fuel x pc)).
Proof.
  intros H1 H2 H3 H4 H5. induction fuel as [|f IH]; intros x pc Hx; cbn [copy_loop].
  - destruct (ce_stopped E x); exact Hx.
  - destruct (ce_stopped E x); [exact Hx|].
    assert (Hs : P (fst (copy_step E x pc))).
    { unfold copy_step. specialize (H1 x copy_buf Hx). destruct (ce_read E x copy_buf) as [x1 rr]. cbn [fst] in H1.
      destruct rr as [d re| |]; try exact H1.
      specialize (H2 x1 d H1). destruct (ce_write E x1 d) as [x2 [m we]]. cbn [fst] in H2.
      destruct we; [exact H2|].
      set (x3 := if _ >? _ then ce_emit E x2 else x2).
      assert (H6 : P x3) by (unfold x3; destruct (_ >? _); auto).
      destruct re as [e|]; [destruct e; exact H6|].
      specialize (H3 x3 (zlen d) H6). destruct (ce_should E x3 (zlen d)) as [x4 b]. cbn [fst] in *. destruct b; auto. }
    destruct (copy_step E x pc) as [x' [pc'|r]]; cbn [fst] in *; auto.
Qed.
