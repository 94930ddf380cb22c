(** ExCodec.v -- a small concrete decompressor, used only to show that the
    hypotheses of the theorems can be met and to exhibit counterexamples.
    Format: a header byte 'H'; then blocks; 'B' x is a block that decodes to the
    two bytes x x, 'S' x y is a stored block of the two bytes x y (read with io.ReadFull), 'N' is an empty block, 'E' ends the stream, 'L' x is a last block x x after
    which the stream ends. *)
From Verif Require Import Base Base_proofs Source Seek Decomp CodecSpec Drive.

Inductive exst := X0 | X1 | X2 | X3 (c : byte) | X4 | X5 | X6 (c : byte) | X7 | X8 (c d : byte) | XF | XC.

Definition ex_step (s : exst) : cact exst :=
  match s with
  | X0 => Pull (fun b => if beqb b "H"%char then X1 else XC)
  | X1 => Pull (fun b => if beqb b "B"%char then X2 else if beqb b "N"%char then X4 else if beqb b "E"%char then XF else if beqb b "L"%char then X5 else if beqb b "S"%char then X7 else XC)
  | X2 => Pull X3
  | X3 c => Emit c [c] X4
  | X4 => Boundary X1
  | X5 => Pull X6
  | X6 c => Emit c [c] XF
  | X7 => PullN 2 (fun l => match l with [x; y] => X8 x y | _ => XC end)
  | X8 x y => Emit x [y] X4
  | XF => Finish
  | XC => Corrupt
  end.

Definition ex_codec (eager eager_save : bool) : codec :=
  MkCodec exst X0 ex_step (fun _ => true) eager eager_save.

Definition ex_in : bytes := s2b "HBaBbBcE".
Definition ex_out : bytes := s2b "aabbcc".

Lemma ex_saves_ok e es : saves_ok (ex_codec e es).
Proof. intros d d' _. reflexivity. Qed.

(** A gzip-like source over a seek source; and one more layer on top of it. *)
Definition ex_stk (e es : bool) : stk := KDec (ex_codec e es) gzip_cfg 100 KSeek.
Definition ex_rs (d : bytes) : rstate := MkRs d 0 [] [].

Lemma ex_den e es : stk_den false ex_in 0 8 (ex_stk e es) ex_out EEof (30 + 6) (negb e) (negb e) es.
Proof.
  unfold ex_stk.
  refine (DenDec false ex_in 0 8 (ex_codec e es) gzip_cfg 100 KSeek ex_in EEof 8 false false 30 ex_out EEof (negb e)
    _ _ _ _ _ _ _ _ _); try reflexivity; try discriminate; try lia.
  - exact (DenSeek false ex_in 0 8 ltac:(lia) ltac:(lia) ltac:(unfold two63; lia)).
  - apply ex_saves_ok.
  - right. vm_compute. splits; try discriminate; exact I.
  - intros He. destruct e; [discriminate|]. split; [reflexivity|]. vm_compute. splits; try reflexivity; exact I.
Qed.

(** Two layers: the inner stream, decoded, is a stream again. *)
Definition ex2_in : bytes := s2b "HBHE".
Definition ex2_stk : stk := KDec (ex_codec false false) flate_cfg 100 (KDec (ex_codec false false) bzip2_cfg 100 KSeek).

Lemma ex2_den : stk_den false ex2_in 0 4 ex2_stk [] ECorrupt (10 + 0) true true false.
Proof.
  unfold ex2_stk.
  refine (DenDec false ex2_in 0 4 (ex_codec false false) flate_cfg 100 _ (s2b "HH") EEof (20 + 2) true false 10 [] ECorrupt true
    _ _ _ _ _ _ _ _ _); try reflexivity; try discriminate; try lia.
  - refine (DenDec false ex2_in 0 4 (ex_codec false false) bzip2_cfg 100 KSeek ex2_in EEof 4 false false 20 (s2b "HH") EEof true
      _ _ _ _ _ _ _ _ _); try reflexivity; try discriminate; try lia.
    + exact (DenSeek false ex2_in 0 4 ltac:(lia) ltac:(lia) ltac:(unfold two63; lia)).
    + apply ex_saves_ok.
    + right. vm_compute. splits; try discriminate; exact I.
    + intros _. split; [reflexivity|]. vm_compute. splits; try reflexivity; exact I.
  - apply ex_saves_ok.
  - intros _. split; [reflexivity|]. vm_compute. splits; try reflexivity; exact I.
Qed.

(** Stored blocks, through two layers: the inner one is what the outer one's
    io.ReadFull reads from. *)
Definition ex3_in : bytes := s2b "HSHSSxySSzStEE".
Definition ex3_stk : stk := KDec (ex_codec false false) flate_cfg 100 (KDec (ex_codec false false) gzip_cfg 100 KSeek).

Lemma ex3_den : stk_den false ex3_in 0 14 ex3_stk (s2b "xyzt") EEof (20 + 4) true true false.
Proof.
  unfold ex3_stk.
  refine (DenDec false ex3_in 0 14 (ex_codec false false) flate_cfg 100 _ (s2b "HSxySztE") EEof (30 + 8) true false 20 (s2b "xyzt") EEof true
    _ _ _ _ _ _ _ _ _); try reflexivity; try discriminate; try lia.
  - refine (DenDec false ex3_in 0 14 (ex_codec false false) gzip_cfg 100 KSeek ex3_in EEof 14 false false 30 (s2b "HSxySztE") EEof true
      _ _ _ _ _ _ _ _ _); try reflexivity; try discriminate; try lia.
    + exact (DenSeek false ex3_in 0 14 ltac:(lia) ltac:(lia) ltac:(unfold two63; lia)).
    + apply ex_saves_ok.
    + right. vm_compute. splits; try discriminate; exact I.
    + intros _. split; [reflexivity|]. vm_compute. splits; try reflexivity; exact I.
  - apply ex_saves_ok.
  - intros _. split; [reflexivity|]. vm_compute. splits; try reflexivity; exact I.
Qed.
