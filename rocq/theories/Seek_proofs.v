(** Seek_proofs.v -- seek sources satisfy the contract, plus exact
    characterisations of the seek source used by the property files. *)
From Coq Require Import Lqa.
From Verif Require Import Base Base_proofs Source Seek Contract.

(** No failure in the future of the underlying reader. *)
Definition rs_nofail (r : rstate) : Prop :=
  (forall b, In b (rs_sorc r) -> b = false) /\ ~ In RsFail (rs_orc r).

Lemma rs_read_spec r n r' d e :
  (0 < n)%nat -> 0 <= rs_pos r -> rs_read r n = (r', d, e) ->
  rs_data r' = rs_data r /\ rs_sorc r' = rs_sorc r /\
  (length d <= n)%nat /\ d = slice (rs_data r) (Z.to_nat (rs_pos r)) (length d) /\
  rs_pos r' = rs_pos r + zlen d /\
  (d = [] -> e <> None) /\
  (e = Some EEof -> (length (rs_data r) <= Z.to_nat (rs_pos r) + length d)%nat) /\
  (forall x, e = Some x -> x = EEof \/ x = EIO) /\
  (e = Some EIO -> ~ rs_nofail r) /\
  (rs_nofail r -> rs_nofail r').
Proof.
  unfold rs_read. intros Hn Hp.
  set (avail := skipn (Z.to_nat (rs_pos r)) (rs_data r)).
  assert (Hlen : length avail = (length (rs_data r) - Z.to_nat (rs_pos r))%nat) by (unfold avail; apply skipn_length).
  assert (Hnof : rs_nofail r -> rs_nofail (MkRs (rs_data r) (rs_pos r) (match rs_orc r with _ :: t => t | [] => [] end) (rs_sorc r))).
  { intros [H1 H2]. split; [exact H1|]. cbn. destruct (rs_orc r); cbn in *; tauto. }
  assert (Hgen : forall lim eof, (0 < lim)%nat -> avail <> [] ->
    forall d e, d = firstn (Nat.min n lim) avail ->
    e = (if eof && (length avail <=? length d)%nat then Some EEof else None) ->
    (length d <= n)%nat /\ d = slice (rs_data r) (Z.to_nat (rs_pos r)) (length d) /\
    (d = [] -> e <> None) /\
    (e = Some EEof -> (length (rs_data r) <= Z.to_nat (rs_pos r) + length d)%nat) /\
    (forall x, e = Some x -> x = EEof \/ x = EIO) /\ (e = Some EIO -> False)).
  { intros lim eof Hlim Hav d0 e0 -> ->.
    set (q := Nat.min n lim).
    assert (Hfl : length (firstn q avail) = Nat.min q (length avail)) by apply firstn_length.
    assert (length avail <> 0)%nat by (destruct avail; cbn; congruence).
    split; [lia|]. split.
    { unfold slice. fold avail. rewrite Hfl. destruct (Nat.le_gt_cases q (length avail)).
      - now rewrite Nat.min_l by lia.
      - rewrite Nat.min_r by lia. rewrite !firstn_all2 by lia. reflexivity. }
    split.
    { intros Hd. assert (length (firstn q avail) = 0)%nat by (rewrite Hd; reflexivity). lia. }
    split.
    { destruct eof; cbn; [|discriminate]. destruct (Nat.leb_spec (length avail) (length (firstn q avail))); [|discriminate].
      intros _. lia. }
    split.
    { intros x. destruct (eof && _); [|discriminate]. injection 1 as <-. auto. }
    destruct (eof && _); discriminate. }
  assert (Hfin : forall o', (rs_nofail r -> ~ In RsFail o') -> forall p, rs_nofail r -> rs_nofail (MkRs (rs_data r) p o' (rs_sorc r))).
  { intros o' Ho' p H. split; [exact (proj1 H)|exact (Ho' H)]. }
  destruct (rs_orc r) as [|[j f|] orest] eqn:Ho.
  - assert (Hf0 : rs_nofail r -> ~ In RsFail []) by (intros _ []).
    destruct avail as [|a av] eqn:Hav.
    + injection 1 as <- <- <-. cbn in *. splits; auto; try congruence; try lia; try (intros ? [= <-]; auto).
    + injection 1 as <- <- <-.
      destruct (Hgen n false Hn ltac:(discriminate) _ _ eq_refl eq_refl) as (A & B & C & F & G & I).
      rewrite Nat.min_id in *. cbn [rs_data rs_sorc rs_pos andb] in *.
      splits; auto; try congruence.
  - assert (Hf0 : rs_nofail r -> ~ In RsFail orest).
    { intros [_ H2] Hin. apply H2. rewrite Ho. right. exact Hin. }
    destruct avail as [|a av] eqn:Hav.
    + injection 1 as <- <- <-. cbn in *. splits; auto; try congruence; try lia; try (intros ? [= <-]; auto).
    + injection 1 as <- <- <-.
      destruct (Hgen (Datatypes.S j) f ltac:(lia) ltac:(discriminate) _ _ eq_refl eq_refl) as (A & B & C & F & G & I).
      cbn [rs_data rs_sorc rs_pos] in *.
      splits; auto; try congruence.
  - assert (Hf0 : rs_nofail r -> ~ In RsFail orest).
    { intros [_ H2] Hin. apply H2. rewrite Ho. right. exact Hin. }
    injection 1 as <- <- <-. cbn in *.
    splits; auto; try congruence; try lia; try (intros ? [= <-]; auto).

    + intros _ [_ H2]. apply H2. rewrite Ho. left. reflexivity.
Qed.

(** bufio.Reader holding [buf] in front of the underlying reader *)
Definition buf_ok (data : bytes) (pos : nat) (b : bstate) (r : rstate) : Prop :=
  rs_data r = data /\ rs_pos r = Z.of_nat (pos + length (b_buf b)) /\
  b_buf b = slice data pos (length (b_buf b)) /\
  (forall e, b_err b = Some e -> e = EEof \/ e = EIO) /\
  (b_err b = Some EEof -> (length data <= pos + length (b_buf b))%nat).
Definition buf_clean (b : bstate) (r : rstate) : Prop := b_err b <> Some EIO /\ rs_nofail r.


Lemma slice_split_pre {A} (data d : list A) pos n :
  d = slice data pos (length d) ->
  firstn n d = slice data pos (length (firstn n d)) /\
  skipn n d = slice data (pos + length (firstn n d)) (length (skipn n d)).
Proof.
  intros Hd.
  pose proof (firstn_length n d) as Hf. pose proof (skipn_length n d) as Hs.
  assert (Hsp : slice data pos (length (firstn n d) + length (skipn n d)) =
     slice data pos (length (firstn n d)) ++ slice data (pos + length (firstn n d)) (length (skipn n d)))
    by apply slice_app.
  assert (Heq : (length (firstn n d) + length (skipn n d) = length d)%nat) by lia.
  rewrite Heq, <- Hd in Hsp.
  assert (Hl : length (slice data pos (length (firstn n d))) = length (firstn n d)).
  { pose proof (slice_length_le data pos (length (firstn n d))).
    pose proof (slice_length_le data (pos + length (firstn n d)) (length (skipn n d))).
    assert (length d = length (slice data pos (length (firstn n d)) ++ slice data (pos + length (firstn n d)) (length (skipn n d))))
      by (rewrite <- Hsp; reflexivity).
    rewrite app_length in *. lia. }
  rewrite <- (firstn_skipn n d) in Hsp at 1.
  apply app_inv_head_iff || idtac.
  assert (firstn n d = slice data pos (length (firstn n d))).
  { apply (f_equal (firstn (length (firstn n d)))) in Hsp.
    rewrite firstn_app_exact in Hsp by reflexivity. rewrite firstn_app_exact in Hsp by exact Hl. exact Hsp. }
  split; [assumption|].
  apply (f_equal (skipn (length (firstn n d)))) in Hsp.
  rewrite skipn_app_exact in Hsp by reflexivity. rewrite skipn_app_exact in Hsp by exact Hl. exact Hsp.
Qed.

Lemma buf_ok_make data pos d n r e :
  rs_data r = data -> rs_pos r = Z.of_nat (pos + length d) ->
  d = slice data pos (length d) ->
  (forall x, e = Some x -> x = EEof \/ x = EIO) ->
  (e = Some EEof -> (length data <= pos + length d)%nat) ->
  buf_ok data (pos + length (firstn n d)) (MkBuf (skipn n d) e) r /\
  firstn n d = slice data pos (length (firstn n d)).
Proof.
  intros H1 H2 H3 H4 H5. destruct (slice_split_pre data d pos n H3) as [Ha Hb].
  pose proof (firstn_length n d) as Hf. pose proof (skipn_length n d) as Hs.
  split; [|exact Ha].
  unfold buf_ok; cbn [b_buf b_err]. split; [exact H1|].
  split; [rewrite H2; f_equal; lia|]. split; [exact Hb|]. split; [exact H4|].
  intros He. specialize (H5 He). lia.
Qed.

Lemma b_read_spec data pos b r n b' r' d e :
  (0 < n)%nat -> buf_ok data pos b r -> b_read b r n = (b', r', d, e) ->
  buf_ok data (pos + length d) b' r' /\ (length d <= n)%nat /\ d = slice data pos (length d) /\
  (d = [] -> e <> None) /\
  (forall x, e = Some x -> x = EEof \/ x = EIO) /\
  (e = Some EEof -> (length data <= pos + length d)%nat) /\
  (e = Some EIO -> ~ buf_clean b r) /\
  (buf_clean b r -> buf_clean b' r') /\
  rs_sorc r' = rs_sorc r.
Proof.
  intros Hn (Hdat & Hpos & Hbuf & Herr & Heof). unfold b_read.
  destruct (Nat.eqb_spec n 0); [lia|].
  destruct (b_buf b) as [|c rest] eqn:Hbb.
  - cbn [length] in *. rewrite Nat.add_0_r in *.
    destruct (b_err b) as [x|] eqn:Hbe.
    + injection 1 as <- <- <- <-. cbn [length]. rewrite Nat.add_0_r.
      split; [|split; [lia|split; [reflexivity|split; [congruence|split; [exact Herr|split; [exact Heof|split]]]]]].
      * split; [exact Hdat|]. cbn. rewrite Nat.add_0_r. split; [exact Hpos|]. split; [reflexivity|].
        split; [congruence|discriminate].
      * intros [= ->] [H1 H2]. congruence.
      * split; [|reflexivity]. intros [H1 H2]. split; [cbn; congruence|exact H2].
    + assert (Hp0 : 0 <= rs_pos r) by lia.
      destruct (Nat.leb_spec bufsize n) as [Hbig|Hsmall].
      * destruct (rs_read r n) as [[r1 d1] e1] eqn:Hr. injection 1 as <- <- <- <-.
        destruct (rs_read_spec _ _ _ _ _ Hn Hp0 Hr) as (A1 & A2 & A3 & A4 & A5 & A6 & A7 & A8 & A9 & A10).
        rewrite Hdat in *. replace (Z.to_nat (rs_pos r)) with pos in * by lia.
        split.
        { split; [congruence|]. cbn. rewrite Nat.add_0_r. split; [rewrite A5, Hpos; unfold zlen; lia|].
          split; [reflexivity|]. split; [congruence|discriminate]. }
        split; [exact A3|]. split; [exact A4|]. split; [exact A6|]. split; [exact A8|]. split; [exact A7|].
        split; [intros He [_ Hc]; apply (A9 He); exact Hc|].
        split; [intros [_ Hc]; split; [cbn; congruence|apply A10; exact Hc]|exact A2].
      * assert (Hb0 : (0 < bufsize)%nat) by (unfold bufsize; lia).
        destruct (rs_read r bufsize) as [[r1 d1] e1] eqn:Hr.
        destruct (rs_read_spec _ _ _ _ _ Hb0 Hp0 Hr) as (A1 & A2 & A3 & A4 & A5 & A6 & A7 & A8 & A9 & A10).
        rewrite Hdat in *. replace (Z.to_nat (rs_pos r)) with pos in * by lia.
        assert (Hp1 : rs_pos r1 = Z.of_nat (pos + length d1)) by (rewrite A5, Hpos; unfold zlen; lia).
        destruct (buf_ok_make data pos d1 n r1 e1 A1 Hp1 A4 A8 A7) as [B1 B2].
        destruct d1 as [|c1 d1'].
        -- injection 1 as <- <- <- <-. cbn [length] in *. rewrite Nat.add_0_r in *.
           split.
           { split; [congruence|]. cbn. rewrite Nat.add_0_r. split; [exact Hp1|].
             split; [reflexivity|]. split; [congruence|discriminate]. }
           split; [lia|]. split; [exact A4|]. split; [exact A6|]. split; [exact A8|]. split; [exact A7|].
           split; [intros He [_ Hc]; apply (A9 He); exact Hc|].
           split; [intros [_ Hc]; split; [cbn; congruence|apply A10; exact Hc]|exact A2].
        -- injection 1 as <- <- <- <-.
           split; [exact B1|]. split; [apply firstn_le_length|]. split; [exact B2|].
           split; [destruct n; [lia|cbn; discriminate]|].
           split; [congruence|]. split; [congruence|]. split; [congruence|].
           split; [|exact A2].
           intros [_ Hc]. split; [|apply A10; exact Hc]. cbn. intros ->. apply (A9 eq_refl); exact Hc.
  - injection 1 as <- <- <- <-. rewrite <- Hbb in *.
    destruct (buf_ok_make data pos (b_buf b) n r (b_err b) Hdat Hpos Hbuf Herr Heof) as [B1 B2].
    split; [exact B1|]. split; [apply firstn_le_length|]. split; [exact B2|].
    split; [rewrite Hbb; destruct n; [lia|cbn; discriminate]|].
    split; [congruence|]. split; [congruence|]. split; [congruence|].
    split; [|reflexivity]. intros [Hc1 Hc2]. split; assumption.
Qed.

(** ReadByte is Read of one byte whose error is held back by the buffer. *)
Lemma b_readbyte_spec data pos b r b' r' x :
  buf_ok data pos b r -> b_readbyte b r = (b', r', x) ->
  rs_sorc r' = rs_sorc r /\ (buf_clean b r -> buf_clean b' r') /\
  match x with
  | inl c => nth_error data pos = Some c /\ buf_ok data (pos + 1) b' r'
  | inr e => buf_ok data pos b' r' /\ (e = EEof /\ (length data <= pos)%nat \/ e = EIO /\ ~ buf_clean b r)
  end.
Proof.
  intros Hok H.
  assert (Hr1 : b_read b r 1 = match x with inl c => (b', r', [c], None) | inr e => (b', r', [], Some e) end).
  { revert H. unfold b_readbyte, b_read. cbn [Nat.eqb].
    destruct (b_buf b) as [|c rest]; [|injection 1 as <- <- <-; reflexivity].
    destruct (b_err b) as [e|]; [injection 1 as <- <- <-; reflexivity|].
    destruct (Nat.leb_spec bufsize 1) as [Hb|_]; [unfold bufsize in Hb; lia|].
    destruct (rs_read r bufsize) as [[r1 d1] e1] eqn:Hr.
    destruct d1 as [|c d1]; [|injection 1 as <- <- <-; reflexivity].
    destruct e1 as [e1|]; [injection 1 as <- <- <-; reflexivity|].
    assert (Hb0 : (0 < bufsize)%nat) by (unfold bufsize; lia).
    assert (Hp0 : 0 <= rs_pos r) by (destruct Hok as (_ & Hp & _); lia).
    destruct (rs_read_spec _ _ _ _ _ Hb0 Hp0 Hr) as (_ & _ & _ & _ & _ & A6 & _).
    exfalso. apply A6; reflexivity. }
  destruct x as [c|e].
  - destruct (b_read_spec _ _ _ _ _ _ _ _ _ (le_n 1) Hok Hr1) as (A1 & A2 & A3 & A4 & A5 & A6 & A7 & A8 & A9).
    split; [exact A9|]. split; [exact A8|]. split; [|exact A1].
    apply slice_1. symmetry. exact A3.
  - destruct (b_read_spec _ _ _ _ _ _ _ _ _ (le_n 1) Hok Hr1) as (A1 & A2 & A3 & A4 & A5 & A6 & A7 & A8 & A9).
    cbn [length] in *. rewrite Nat.add_0_r in *.
    split; [exact A9|]. split; [exact A8|]. split; [exact A1|].
    destruct (A5 e eq_refl) as [-> | ->]; [left|right]; auto.
Qed.

(** A reader that never returns io.EOF together with data. *)
Definition rs_polite (r : rstate) : Prop := forall k, ~ In (RsChunk k true) (rs_orc r).

Lemma rs_read_polite r n r' d e : rs_read r n = (r', d, e) -> rs_polite r -> rs_polite r' /\ (e = Some EEof -> d = []).
Proof.
  unfold rs_read. intros H Hp.
  destruct (rs_orc r) as [|[k f|] o] eqn:Ho.
  - destruct (skipn (Z.to_nat (rs_pos r)) (rs_data r)); injection H as <- <- <-; (split; [intros k []|]); [reflexivity|cbn; discriminate].
  - assert (Hp' : rs_polite (MkRs (rs_data r) (rs_pos r) o (rs_sorc r))).
    { intros j Hj. apply (Hp j). rewrite Ho. right. exact Hj. }
    assert (f = false) as -> by (destruct f; [|reflexivity]; exfalso; apply (Hp k); rewrite Ho; left; reflexivity).
    destruct (skipn (Z.to_nat (rs_pos r)) (rs_data r)); injection H as <- <- <-; (split; [exact Hp'|]); [reflexivity|cbn; discriminate].
  - injection H as <- <- <-. split; [|discriminate]. intros j Hj. apply (Hp j). rewrite Ho. right. exact Hj.
Qed.

Lemma b_read_polite b r n b' r' d e : (0 < n)%nat -> b_read b r n = (b', r', d, e) -> rs_polite r ->
  rs_polite r' /\ (e = Some EEof -> d = []).
Proof.
  unfold b_read. intros Hn H Hp. destruct (Nat.eqb_spec n 0); [lia|].
  destruct (b_buf b) as [|c rest].
  - destruct (b_err b) as [x|]; [injection H as <- <- <- <-; auto|].
    destruct (bufsize <=? n)%nat.
    + destruct (rs_read r n) as [[r1 d1] e1] eqn:Hr. injection H as <- <- <- <-.
      exact (rs_read_polite _ _ _ _ _ Hr Hp).
    + destruct (rs_read r bufsize) as [[r1 d1] e1] eqn:Hr. destruct (rs_read_polite _ _ _ _ _ Hr Hp) as [H1 H2].
      destruct d1; injection H as <- <- <- <-; (split; [exact H1|]); [auto|discriminate].
  - injection H as <- <- <- <-. split; [exact Hp|discriminate].
Qed.

Lemma b_readbyte_polite b r b' r' x : b_readbyte b r = (b', r', x) -> rs_polite r -> rs_polite r'.
Proof.
  unfold b_readbyte. intros H Hp.
  destruct (b_buf b); [|injection H as <- <- <-; exact Hp].
  destruct (b_err b); [injection H as <- <- <-; exact Hp|].
  destruct (rs_read r bufsize) as [[r1 d1] e1] eqn:Hr. destruct (rs_read_polite _ _ _ _ _ Hr Hp) as [H1 H2].
  destruct d1; injection H as <- <- <-; exact H1.
Qed.

(** ** The contract *)
Section SeekLaws.
  Context (data : bytes) (start size : Z) (pol : bool).
  Hypothesis Hstart : 0 <= start.
  Hypothesis Hsize : 0 <= size.
  Hypothesis Hfit : start + size < two63.

  (** what the source delivers *)
  Definition seek_data : bytes := slice data (Z.to_nat start) (Z.to_nat size).

  Definition seek_static (s : sstate) : Prop :=
    ss_start s = start /\ ss_size s = size /\ rs_data (ss_rs s) = data /\ (pol = true -> rs_polite (ss_rs s)).

  Definition seek_at (s : sstate) (o m : nat) : Prop :=
    seek_static s /\ ss_off s = Z.of_nat o /\ (o <= length seek_data)%nat /\ m = (length seek_data - o)%nat /\
    exists b, ss_br s = Some b /\ buf_ok data (Z.to_nat start + o) b (ss_rs s).

  Definition seek_clean (s : sstate) : Prop :=
    rs_nofail (ss_rs s) /\ (forall b, ss_br s = Some b -> b_err b <> Some EIO).

  Definition seek_ck (c : sckpt unit) : Prop := 0 <= ck_off c <= zlen seek_data.

  Lemma seek_data_len : zlen seek_data <= size.
  Proof. unfold seek_data, zlen. pose proof (slice_length_le data (Z.to_nat start) (Z.to_nat size)). lia. Qed.

  Lemma seek_resume_ok s c s' r :
    seek_static s -> (forall x, c = Some x -> seek_ck x) -> seek_resume s c = (s', r) ->
    match r with
    | Ok z => z = match c with Some x => ck_off x | None => 0 end
        /\ seek_at s' (Z.to_nat z) (length seek_data - Z.to_nat z)
        /\ ss_want s' = ss_want s /\ (seek_clean s -> seek_clean s')
    | Err e => ~ seek_clean s \/ (seek_data = [] /\ EEof <> EEof)
    | Panic => False | Hang => False
    end.
  Proof.
    intros (H1 & H2 & H3 & HP) Hck. unfold seek_resume.
    pose proof seek_data_len as Hdl.
    assert (Hgo : forall off, 0 <= off <= zlen seek_data ->
      (let '(rs', e) := rs_seek (ss_rs s) (wrap64 (ss_start s + off)) in
       match e with
       | Some e => (MkSeek rs' (ss_br s) (ss_ssc s) (ss_want s) (ss_start s) off (ss_size s), Err e)
       | None => (MkSeek rs' (Some buf_empty) (ss_ssc s) (ss_want s) (ss_start s) off (ss_size s), Ok off)
       end) = (s', r) ->
      match r with
      | Ok z => z = off /\ seek_at s' (Z.to_nat z) (length seek_data - Z.to_nat z)
         /\ ss_want s' = ss_want s /\ (seek_clean s -> seek_clean s')
      | Err e => ~ seek_clean s \/ (seek_data = [] /\ EEof <> EEof)
      | Panic => False | Hang => False
      end).
    { intros off Hoff. rewrite H1. rewrite wrap64_id by (unfold is_int64, two63 in *; lia).
      unfold rs_seek. destruct (match rs_sorc (ss_rs s) with b :: _ => b | [] => false end) eqn:Hf.
      - injection 1 as <- <-. left. intros [[Hn _] _].
        destruct (rs_sorc (ss_rs s)) as [|b bs]; [discriminate|]. specialize (Hn b (or_introl eq_refl)). congruence.
      - destruct (Z.ltb_spec (start + off) 0); [lia|].
        injection 1 as <- <-. split; [reflexivity|]. split; [|split; [reflexivity|]].
        + unfold zlen in *. split; [repeat split; assumption|]. cbn [ss_off]. split; [lia|]. split; [lia|].
          split; [reflexivity|]. exists buf_empty. split; [reflexivity|].
          unfold buf_ok. cbn. split; [exact H3|]. split; [lia|]. split; [reflexivity|]. split; discriminate.
        + intros [[Hn1 Hn2] Hb]. split; cbn.
          * split; [|exact Hn2]. intros b Hin. apply Hn1. destruct (rs_sorc (ss_rs s)); [destruct Hin|right; exact Hin].
          * intros b [= <-]. discriminate. }
    destruct c as [c|].
    - specialize (Hck c eq_refl). unfold seek_ck in Hck.
      destruct (Z.ltb_spec (ck_off c) 0); [lia|]. apply Hgo. exact Hck.
    - apply Hgo. unfold zlen. lia.
  Qed.

  Lemma seek_handle_save_spec K (cb : callback unit K) s k s1 k1 rr :
    seek_handle_save cb s k = (s1, k1, rr) ->
    s1 = MkSeek (ss_rs s) (ss_br s) (ss_ssc s) false (ss_start s) (ss_off s) (ss_size s) /\
    (ss_want s = true /\ ss_ssc s = true /\ (exists r0, cb (MkCk (ss_off s) None) k = (k1, r0) /\
        rr = match r0 with CPanic => CPanic | _ => COk end)
     \/ ((ss_want s = false \/ ss_ssc s = false) /\ k1 = k /\ rr = COk)).
  Proof.
    unfold seek_handle_save. destruct (ss_want s) eqn:Hw; [destruct (ss_ssc s) eqn:Hs|].
    - destruct (cb (MkCk (ss_off s) None) k) as [k2 r0] eqn:Hcb. injection 1 as <- <- <-.
      split; [reflexivity|]. left. repeat split; auto. exists r0. auto.
    - injection 1 as <- <- <-. split; [reflexivity|]. right. auto.
    - injection 1 as <- <- <-. split; [destruct s; cbn in *; congruence|]. right. auto.
  Qed.

  (** Everything Read does, for a resumed source. *)
  Lemma seek_read_full K (cb : callback unit K) s k n o m s' k' r :
    seek_at s o m -> (0 < n)%nat -> seek_read cb s k n = (s', k', r) ->
    exists evs, calls cb k evs k' /\
      (evs = [] \/ exists rr, evs = [(MkCk (Z.of_nat o) None, rr)] /\ ss_want s = true /\ ss_ssc s = true /\ (o < Z.to_nat size)%nat) /\
      (ss_want s = true -> ss_ssc s = true -> (o < Z.to_nat size)%nat -> evs <> []) /\
      ss_want s' = (if (o <? Z.to_nat size)%nat then false else ss_want s) /\ ss_ssc s' = ss_ssc s /\
      match r with
      | RRet d e =>
          (length d <= n)%nat /\ d = slice seek_data o (length d) /\
          seek_at s' (o + length d) (length seek_data - (o + length d)) /\
          (seek_clean s -> seek_clean s') /\
          (forall c rr, In (c, rr) evs -> rr <> CPanic) /\
          (e = None -> d <> []) /\
          (forall x, e = Some x -> x = EEof /\ (o + length d = length seek_data)%nat /\ (pol = true -> d = []) \/ x = EIO /\ ~ seek_clean s)
      | RPanic => exists c, In (c, CPanic) evs
      | RHang => False
      end.
  Proof.
    intros (Hst & Hoff & Ho & -> & b & Hb & Hok) Hn. unfold seek_read. rewrite Hb.
    destruct Hst as (H1 & H2 & H3 & HP).
    assert (Hbuf0 : forall d, d = slice data (Z.to_nat start + o) (length d) -> (length d <= Z.to_nat size - o)%nat ->
        d = slice seek_data o (length d) /\ (o + length d <= length seek_data)%nat).
    { intros d Hd Hl. unfold seek_data.
      destruct (Nat.eq_dec (length d) 0) as [E|E].
      - destruct d; [|discriminate E]. cbn [length]. rewrite slice_0. split; [reflexivity|].
        unfold seek_data in Ho. lia.
      - assert (Hos : (o + length d <= Z.to_nat size)%nat) by lia.
        split; [rewrite slice_slice by lia; exact Hd|].
        assert (Hll : (length d <= length data - (Z.to_nat start + o))%nat).
        { rewrite Hd at 1. apply slice_length_le2. }
        assert (length (slice data (Z.to_nat start) (o + length d)) = o + length d)%nat by (apply slice_length; lia).
        assert (slice data (Z.to_nat start) (Z.to_nat size) =
           slice data (Z.to_nat start) (o + length d) ++ slice data (Z.to_nat start + (o + length d)) (Z.to_nat size - (o + length d)))
          by (rewrite <- slice_app; f_equal; lia).
        rewrite H0, app_length. lia. }
    destruct (Nat.eqb_spec n 0); [lia|]. rewrite H2, Hoff.
    pose proof seek_data_len as Hdl. unfold zlen in Hdl.
    destruct (Z.eqb_spec (size - Z.of_nat o) 0) as [Hrem|Hrem].
    - injection 1 as <- <- <-. exists []. split; [reflexivity|]. split; [auto|].
      assert ((o <? Z.to_nat size)%nat = false) as -> by lia.
      split; [intros; lia|]. split; [reflexivity|]. split; [reflexivity|].
      cbn [length]. rewrite Nat.add_0_r. split; [lia|]. split; [reflexivity|].
      split; [repeat split; auto; exists b; auto|]. split; [auto|]. split; [intros ? ? []|].
      split; [discriminate|]. intros x [= <-]. left. split; [reflexivity|]. split; [lia|reflexivity].
    - destruct (Z.ltb_spec (size - Z.of_nat o) 0) as [|_]; [lia|]. rewrite andb_false_r.
      set (n' := if Z.of_nat n >? size - Z.of_nat o then Z.to_nat (size - Z.of_nat o) else n).
      assert (Hn' : (0 < n')%nat /\ (n' <= n)%nat /\ (n' <= Z.to_nat size - o)%nat).
      { unfold n'. destruct (Z.of_nat n >? size - Z.of_nat o) eqn:E; lia. }
      destruct Hn' as (Hn1 & Hn2 & Hn3).
      destruct (seek_handle_save cb s k) as [[s1 k1] rr] eqn:Hsave.
      destruct (seek_handle_save_spec _ _ _ _ _ _ _ Hsave) as (-> & Hcases). clear Hsave.
      assert ((o <? Z.to_nat size)%nat = true) as -> by lia.
      cbn [ss_br ss_rs ss_ssc ss_want ss_start ss_off ss_size].
      rewrite Hb, Hoff, H1, H2 in *.
      destruct (b_read b (ss_rs s) n') as [[[b' rs'] d] e] eqn:Hbr.
      destruct (b_read_spec _ _ _ _ _ _ _ _ _ Hn1 Hok Hbr) as (A1 & A2 & A3 & A4 & A5 & A6 & A7 & A8 & A9).
      assert (HPr : pol = true -> rs_polite rs' /\ (e = Some EEof -> d = [])).
      { intros Hp. exact (b_read_polite _ _ _ _ _ _ _ Hn1 Hbr (HP Hp)). }
      destruct (Hbuf0 d A3 ltac:(lia)) as [B1 B2].
      set (evs := if ss_want s && ss_ssc s then [(MkCk (Z.of_nat o) None, snd (cb (MkCk (Z.of_nat o) None) k))] else [] : list (sckpt unit * cres)).
      assert (Hev : calls cb k evs k1 /\
        (evs = [] \/ exists rr, evs = [(MkCk (Z.of_nat o) None, rr)] /\ ss_want s = true /\ ss_ssc s = true /\ (o < Z.to_nat size)%nat) /\
        (ss_want s = true -> ss_ssc s = true -> (o < Z.to_nat size)%nat -> evs <> []) /\
        (rr = CPanic <-> exists c, In (c, CPanic) evs)).
      { unfold evs. destruct Hcases as [(-> & -> & r0 & Hcb & ->)|(Hno & -> & ->)].
        - cbn [andb]. rewrite Hcb. cbn [calls snd]. split; [eauto|]. split; [right; exists r0; repeat split; auto; lia|].
          split; [discriminate|]. split.
          + destruct r0; try discriminate. intros _. eexists. left. reflexivity.
          + intros (c & [Hc|[]]). injection Hc as _ ->. reflexivity.
        - assert (ss_want s && ss_ssc s = false) as -> by (destruct Hno as [-> | ->]; [reflexivity|apply andb_false_r]).
          cbn. split; [reflexivity|]. split; [auto|]. split; [intros; destruct Hno; congruence|].
          split; [discriminate|]. intros (c & []). }
      destruct Hev as (E1 & E2 & E3 & E4).
      assert (Hrr : rr = CPanic \/ rr = COk).
      { destruct Hcases as [(_ & _ & r0 & _ & ->)|(_ & _ & ->)]; [destruct r0|]; auto. }
      destruct Hrr as [-> | ->].
      + injection 1 as <- <- <-. exists evs. cbn [ss_want ss_ssc]. repeat split; auto. apply E4; reflexivity.
      + injection 1 as <- <- <-. exists evs. cbn [ss_want ss_ssc]. split; [exact E1|]. split; [exact E2|].
        split; [exact E3|]. split; [reflexivity|]. split; [reflexivity|].
        split; [lia|]. split; [exact B1|].
        split.
        { split; [split; [reflexivity|split; [reflexivity|]]|].
          - cbn. split; [rewrite (proj1 A1); reflexivity|]. intros Hp. exact (proj1 (HPr Hp)).
          - cbn [ss_off ss_br ss_rs]. split; [unfold zlen; lia|]. split; [exact B2|]. split; [reflexivity|].
            exists b'. split; [reflexivity|]. rewrite Nat.add_assoc. exact A1. }
        split.
        { intros [C1 C2]. destruct (A8 (conj (C2 b Hb) C1)) as [F1 F2].
          split; [exact F2|]. cbn. intros b0 [= <-]. exact F1. }
        split.
        { intros c rr Hin ->. destruct E4 as [_ E4]. specialize (E4 (ex_intro _ c Hin)). discriminate. }
        split; [intros -> ->; apply A4; reflexivity|].
        intros x Hx. destruct (A5 x Hx) as [-> | ->].
        * left. split; [reflexivity|]. split; [|intros Hp; exact (proj2 (HPr Hp) Hx)]. specialize (A6 Hx).
          assert (length seek_data <= length data - Z.to_nat start)%nat by (unfold seek_data; apply slice_length_le2).
          lia.
        * right. split; [reflexivity|]. intros [C1 C2]. apply (A7 Hx). split; [exact (C2 b Hb)|exact C1].
  Qed.

  (** Everything ReadByte does, for a resumed source. *)
  Lemma seek_readbyte_full K (cb : callback unit K) s k o m s' k' r :
    seek_at s o m -> seek_readbyte cb s k = (s', k', r) ->
    exists evs, calls cb k evs k' /\
      (evs = [] \/ exists rr, evs = [(MkCk (Z.of_nat o) None, rr)] /\ ss_want s = true /\ ss_ssc s = true /\ (o < Z.to_nat size)%nat) /\
      (ss_want s = true -> ss_ssc s = true -> (o < Z.to_nat size)%nat -> evs <> []) /\
      ss_want s' = (if (o <? Z.to_nat size)%nat then false else ss_want s) /\ ss_ssc s' = ss_ssc s /\
      match r with
      | BRet c None => nth_error seek_data o = Some c /\ seek_at s' (o + 1) (length seek_data - (o + 1)) /\
          (seek_clean s -> seek_clean s') /\ (forall c rr, In (c, rr) evs -> rr <> CPanic)
      | BRet _ (Some e) => seek_at s' o m /\ (seek_clean s -> seek_clean s') /\
          (forall c rr, In (c, rr) evs -> rr <> CPanic) /\
          (e = EEof /\ o = length seek_data \/ e = EIO /\ ~ seek_clean s)
      | BPanic => exists c, In (c, CPanic) evs
      | BHang => False
      end.
  Proof.
    intros Hat. pose proof Hat as (Hst & Hoff & Ho & Hm & b & Hb & Hok). unfold seek_readbyte. rewrite Hb.
    destruct Hst as (H1 & H2 & H3 & HP). rewrite H2, Hoff.
    pose proof seek_data_len as Hdl. unfold zlen in Hdl.
    destruct (Z.eqb_spec (Z.of_nat o) size) as [Hrem|Hrem].
    - injection 1 as <- <- <-. exists []. split; [reflexivity|]. split; [auto|].
      assert ((o <? Z.to_nat size)%nat = false) as -> by lia.
      split; [intros; lia|]. split; [reflexivity|]. split; [reflexivity|].
      split; [exact Hat|]. split; [auto|]. split; [intros ? ? []|]. left. split; [reflexivity|lia].
    - destruct (seek_handle_save cb s k) as [[s1 k1] rr] eqn:Hsave.
      destruct (seek_handle_save_spec _ _ _ _ _ _ _ Hsave) as (-> & Hcases). clear Hsave.
      assert (Hlt : (o <? Z.to_nat size)%nat = true) by lia. rewrite Hlt.
      cbn [ss_br ss_rs ss_ssc ss_want ss_start ss_off ss_size].
      rewrite Hb, Hoff, H1, H2 in *.
      destruct (b_readbyte b (ss_rs s)) as [[b' rs'] x] eqn:Hbr.
      destruct (b_readbyte_spec _ _ _ _ _ _ _ Hok Hbr) as (A1 & A2 & A3).
      assert (HPr : pol = true -> rs_polite rs').
      { intros Hp. exact (b_readbyte_polite _ _ _ _ _ Hbr (HP Hp)). }
      set (evs := if ss_want s && ss_ssc s then [(MkCk (Z.of_nat o) None, snd (cb (MkCk (Z.of_nat o) None) k))] else [] : list (sckpt unit * cres)).
      assert (Hev : calls cb k evs k1 /\
        (evs = [] \/ exists rr, evs = [(MkCk (Z.of_nat o) None, rr)] /\ ss_want s = true /\ ss_ssc s = true /\ (o < Z.to_nat size)%nat) /\
        (ss_want s = true -> ss_ssc s = true -> (o < Z.to_nat size)%nat -> evs <> []) /\
        (rr = CPanic <-> exists c, In (c, CPanic) evs)).
      { unfold evs. destruct Hcases as [(-> & -> & r0 & Hcb & ->)|(Hno & -> & ->)].
        - cbn [andb]. rewrite Hcb. cbn [calls snd]. split; [eauto|]. split; [right; exists r0; repeat split; auto; lia|].
          split; [discriminate|]. split.
          + destruct r0; try discriminate. intros _. eexists. left. reflexivity.
          + intros (c & [Hc|[]]). injection Hc as _ ->. reflexivity.
        - assert (ss_want s && ss_ssc s = false) as -> by (destruct Hno as [-> | ->]; [reflexivity|apply andb_false_r]).
          cbn. split; [reflexivity|]. split; [auto|]. split; [intros; destruct Hno; congruence|].
          split; [discriminate|]. intros (c & []). }
      destruct Hev as (E1 & E2 & E3 & E4).
      assert (Hrr : rr = CPanic \/ rr = COk).
      { destruct Hcases as [(_ & _ & r0 & _ & ->)|(_ & _ & ->)]; [destruct r0|]; auto. }
      assert (Hnp : rr = COk -> forall c rr, In (c, rr) evs -> rr <> CPanic).
      { intros -> c rr' Hin ->. destruct E4 as [_ E4]. specialize (E4 (ex_intro _ c Hin)). discriminate. }
      destruct Hrr as [-> | ->].
      + injection 1 as <- <- <-. exists evs. cbn [ss_want ss_ssc]. repeat split; auto. apply E4; reflexivity.
      + destruct x as [c|e]; injection 1 as <- <- <-; exists evs; cbn [ss_want ss_ssc];
          (split; [exact E1|]; split; [exact E2|]; split; [exact E3|]; split; [reflexivity|]; split; [reflexivity|]).
        * destruct A3 as [A3 A4].
          assert (Hn : nth_error seek_data o = Some c).
          { unfold seek_data. apply slice_1. rewrite slice_slice by lia. apply slice_1. exact A3. }
          split; [exact Hn|].
          assert (o < length seek_data)%nat by (apply nth_error_Some; congruence).
          split; [|split; [|exact (Hnp eq_refl)]].
          -- split; [split; [reflexivity|split; [reflexivity|]]|].
             ++ cbn. split; [exact (proj1 A4)|exact HPr].
             ++ cbn [ss_off ss_br ss_rs]. split; [lia|]. split; [lia|]. split; [reflexivity|].
                exists b'. split; [reflexivity|]. rewrite Nat.add_assoc. exact A4.
          -- intros [C1 C2]. destruct (A2 (conj (C2 b Hb) C1)) as [F1 F2].
             split; [exact F2|]. cbn. intros b0 [= <-]. exact F1.
        * destruct A3 as [A3 A4]. split; [|split; [|split; [exact (Hnp eq_refl)|]]].
          -- split; [split; [reflexivity|split; [reflexivity|]]|].
             ++ cbn. split; [exact (proj1 A3)|exact HPr].
             ++ cbn [ss_off ss_br ss_rs]. split; [lia|]. split; [lia|]. split; [exact Hm|].
                exists b'. split; [reflexivity|]. exact A3.
          -- intros [C1 C2]. destruct (A2 (conj (C2 b Hb) C1)) as [F1 F2].
             split; [exact F2|]. cbn. intros b0 [= <-]. exact F1.
          -- destruct A4 as [[-> A4]|[-> A4]].
             ++ left. split; [reflexivity|].
                assert (length seek_data <= length data - Z.to_nat start)%nat by (unfold seek_data; apply slice_length_le2).
                lia.
             ++ right. split; [reflexivity|]. intros [C1 C2]. apply A4. split; [exact (C2 b Hb)|exact C1].
  Qed.

  Lemma seek_progress_q s o m : seek_at s o m ->
  (0 <= seek_progress s <= 1)%Q /\
  (size > 0 -> (seek_progress s == inject_Z (Z.of_nat o) / inject_Z size)%Q).
Proof.
  intros ((_ & H1 & _) & H2 & H3 & _). unfold seek_progress. rewrite H1, H2.
  destruct (size >? 0) eqn:Hs; [|split; [lra|lia]].
  assert (Hlen : Z.of_nat o <= size).
  { pose proof seek_data_len as Hx. unfold zlen in Hx. lia. }
  split; [|intros _; reflexivity].
  assert (Hp : (0 < inject_Z size)%Q) by (unfold Qlt; cbn; lia).
  split.
  - apply Qle_shift_div_l; [exact Hp|]. rewrite Qmult_0_l. unfold Qle; cbn; lia.
  - apply Qle_shift_div_r; [exact Hp|]. rewrite Qmult_1_l. unfold Qle; cbn; lia.
Qed.

  Definition seek_laws : laws seek_source seek_data EEof.
  Proof.
    refine (MkLaws seek_source seek_data EEof
      seek_static seek_at (fun s => ss_want s = false) seek_clean seek_ck (length seek_data) false pol
      _ _ _ _ _ _ _ _ _ _).
    - discriminate.
    - intros st o m H. exact (proj1 H).
    - intros st o m (_ & _ & H1 & -> & _). lia.
    - intros c H. exact H.
    - intros st H. cbn. split; [exact H|]. split; [intros o m Ha; exact Ha|]. split; intros Hx; exact Hx.
    - intros st o m H. split; [exact H|]. intros Hx; exact Hx.
    - intros st o m H. exact (proj1 (seek_progress_q st o m H)).
    - intros st c st' r Hst Hck Hr.
      pose proof (seek_resume_ok st c st' r Hst Hck Hr) as H.
      destruct r as [z|e| |]; try exact H.
      destruct H as (H1 & H2 & H3 & H4). split; [exact H1|]. eexists. split; [exact H2|].
      split; [congruence|exact H4].
    - intros K cb st k n o m st' k' r Hat Hn Hr.
      destruct (seek_read_full K cb st k n o m st' k' r Hat Hn Hr) as (evs & E1 & E2 & E3 & E4 & E5 & E6).
      exists evs. split; [exact E1|].
      split; [destruct E2 as [-> | (rr & -> & _)]; cbn; lia|].
      assert (Hin : forall c rr, In (c, rr) evs -> c = MkCk (Z.of_nat o) None /\ ss_want st = true).
      { destruct E2 as [-> | (rr0 & -> & Hw & _)]; intros c rr; [intros []|]. intros [Hc|[]]. injection Hc as <- _. auto. }
      split.
      { intros c rr Hc. destruct (Hin c rr Hc) as [-> Hw]. split; [congruence|].
        destruct Hat as (_ & _ & Ho & _). unfold seek_ck, zlen. cbn. lia. }
      destruct r as [d e| |]; try exact E6.
      destruct E6 as (F1 & F2 & F3 & F4 & F5 & F6 & F7).
      split; [exact F1|]. split; [exact F2|]. split.
      { eexists. split; [exact F3|]. destruct Hat as (_ & _ & Ho & -> & _). split; [lia|].
        intros He. specialize (F6 He). destruct d; [congruence|]. pose proof (proj1 (proj2 (proj2 F3))). cbn in *. lia. }
      split; [intros Hq; rewrite E4, Hq; destruct (_ <? _)%nat; reflexivity|].
      split; [exact F4|]. split.
      { intros c rr Hc. split; [exact (F5 c rr Hc)|]. left. destruct (Hin c rr Hc) as [-> _]. reflexivity. }
      destruct e as [e|]; [|exact I].
      destruct (F7 e eq_refl) as [(-> & F8 & F9)|[-> F8]].
      + left. splits; auto.
      + right. right. repeat split; auto; discriminate.
    - intros K cb st k n o m st' k' d Hat _ Hn Hr.
      destruct (seek_read_full K cb st k n o m st' k' _ Hat Hn Hr) as (evs & _ & _ & _ & _ & _ & (_ & _ & _ & _ & _ & F6 & _)).
      exact (F6 eq_refl).
  Defined.

  Lemma seek_byte_law : byte_law seek_laws.
  Proof.
    intros K cb st k o m st' k' r Hat Hr.
    destruct (seek_readbyte_full K cb st k o m st' k' r Hat Hr) as (evs & E1 & E2 & E3 & E4 & E5 & E6).
    exists evs. split; [exact E1|].
    assert (Hin : forall c rr, In (c, rr) evs -> c = MkCk (Z.of_nat o) None /\ ss_want st = true).
    { destruct E2 as [-> | (rr0 & -> & Hw & _)]; intros c rr; [intros []|]. intros [Hc|[]]. injection Hc as <- _. auto. }
    split.
    { intros c rr Hc. destruct (Hin c rr Hc) as [-> Hw]. cbn. split; [congruence|].
      destruct Hat as (_ & _ & Ho & _). unfold seek_ck, zlen. cbn. lia. }
    destruct r as [c [e|]| |]; try exact E6.
    - destruct E6 as (F1 & F2 & F3 & F4). split.
      { intros c' rr Hc. split; [exact (F3 c' rr Hc)|]. destruct (Hin c' rr Hc) as [-> _]. cbn. lia. }
      split; [cbn; intros Hq; rewrite E4, Hq; destruct (_ <? _)%nat; reflexivity|].
      split; [exact F2|]. left. split; [exists m; split; [exact F1|lia]|].
      destruct F4 as [[-> F4]|[-> F4]]; [left; auto|right; repeat split; auto; discriminate].
    - destruct E6 as (F1 & F2 & F3 & F4). split; [exact F1|]. split.
      { eexists. split; [exact F2|]. destruct Hat as (_ & _ & Ho & -> & _).
        assert (o < length seek_data)%nat by (apply nth_error_Some; congruence). lia. }
      split; [cbn; intros Hq; rewrite E4, Hq; destruct (_ <? _)%nat; reflexivity|].
      split; [exact F3|]. intros c' rr Hc. split; [exact (F4 c' rr Hc)|].
      destruct (Hin c' rr Hc) as [-> _]. cbn. lia.
  Qed.
End SeekLaws.
