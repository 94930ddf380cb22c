(** SpoilSpec.v -- checkpoints that have lost a part of their content.
    A checkpoint is stored by the user (encoding/gob) and may come back with
    parts that cannot be used: the decoder of a decompressor's state may refuse
    it (a different version of the library), or the nested checkpoint of the
    underlying source may be missing. flatesource.go:71-111 and its siblings, as
    well as DiscardByRead (source.go:96-121), are there for such cases. *)
From Verif Require Import Base Source Seek Decomp Drive.

(** [spoilt k c c']: [c'] is what became of the checkpoint [c] of a stack [k].
    - Of a seek source's checkpoint only the offset matters; an earlier one may be left;
    - a decompressing source's checkpoint has lost its own data, or the
      decompressor's state in it, or the checkpoint of its input, or that one
      is itself spoilt. (flatesource.go:26-29 and brotlisource.go:25-28 have no Offset of their
      own, so that [dk_off] means nothing to them.) *)
Fixpoint spoilt (k : stk) : sckpt (s_ck (stk_source k)) -> sckpt (s_ck (stk_source k)) -> Prop :=
  match k return sckpt (s_ck (stk_source k)) -> sckpt (s_ck (stk_source k)) -> Prop with
  | KSeek => fun c c' => ck_off c' = ck_off c \/ 0 <= ck_off c' <= ck_off c
  | KDec C cfg fuel s => fun c c' =>
      ck_data c' = None \/
      exists dk dk', ck_data c = Some dk /\ ck_data c' = Some dk' /\
        (dk_off _ _ dk' = dk_off _ _ dk \/ cf_own_off cfg = false) /\ dk_roff _ _ dk' = dk_roff _ _ dk /\ dk_woff _ _ dk' = dk_woff _ _ dk /\
        (dk_snap _ _ dk' = dk_snap _ _ dk \/ dk_snap _ _ dk' = None) /\
        (dk_src _ _ dk' = None \/
         exists ic ic', dk_src _ _ dk = Some ic /\ dk_src _ _ dk' = Some ic' /\ (ic' = ic \/ spoilt s ic ic'))
  end.

(** The outermost decompressor's own state is still there. *)
Definition keeps_state (k : stk) : sckpt (s_ck (stk_source k)) -> Prop :=
  match k return sckpt (s_ck (stk_source k)) -> Prop with
  | KSeek => fun _ => False
  | KDec C cfg fuel s => fun c' => exists dk d, ck_data c' = Some dk /\ dk_snap _ _ dk = Some d
  end.

Lemma spoilt_trans : forall k (a b c : sckpt (s_ck (stk_source k))), spoilt k a b -> spoilt k b c -> spoilt k a c.
Proof.
  induction k as [|C cfg fuel s IH].
  - cbn [spoilt]. intros. lia.
  - intros a b c H1 H2. destruct H2 as [H2|(dk1 & dk2 & A1 & A2 & A3 & A4 & A5 & A6 & A7)]; [left; exact H2|].
    destruct H1 as [H1|(dk & dk1' & B1 & B2 & B3 & B4 & B5 & B6 & B7)]; [congruence|].
    rewrite A1 in B2. injection B2 as <-. right. exists dk, dk2. split; [exact B1|]. split; [exact A2|].
    split; [destruct A3 as [A3|A3], B3 as [B3|B3]; auto; left; congruence|]. split; [congruence|]. split; [congruence|]. split.
    + destruct A6 as [-> | A6]; [exact B6|right; exact A6].
    + destruct A7 as [A7|(i1 & i2 & C1 & C2 & C3)]; [left; exact A7|].
      destruct B7 as [B7|(i0 & i1' & D1 & D2 & D3)]; [congruence|]. rewrite C1 in D2. injection D2 as <-.
      right. exists i0, i2. split; [exact D1|]. split; [exact C2|].
      destruct C3 as [-> | C3]; [exact D3|]. destruct D3 as [-> | D3]; [right; exact C3|right; exact (IH _ _ _ D3 C3)].
Qed.
