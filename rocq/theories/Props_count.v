(** Props_count.v -- C10 for counting sources that are used again and again: resumed any
    number of times, from any checkpoint or none, with or without success, with
    sections taken at any moment. *)
From Coq Require Import Sorted.
From Verif Require Import Base Base_proofs Source Seek Decomp CodecSpec Counting Contract Seek_proofs Decomp_proofs
  Drive Stack_proofs SeekTrace_proofs Counting_proofs SourceMisc_proofs ExCodec Props_source Props_source2.

(** The number of bytes delivered since the last callback. *)
Fixpoint since_callback {CK} (n : Z) (evs : list (tev CK)) : Z :=
  match evs with
  | [] => n
  | ev :: evs' => let t := n + zlen (te_data ev) in since_callback (if t >? read_byte_threshold then 0 else t) evs'
  end.

Notation X := seek_seeksource.
(** [counted data start0 log0 base n size c]: c is a counting source, made at
    first around a seek source that starts at [start0] of the file [data]; it may now be a section,
    [base] bytes further on, with [size] bytes; [n] bytes were delivered by it since
    its last callback. [ops]: whatever the user does with it after a successful
    Resume. *)
Inductive counted (data : bytes) (start0 : Z) : Z -> Z -> Z -> cstate X -> Prop :=
| CnNew size s0 : seek_over data start0 size s0 -> counted data start0 0 0 size (counting_new X s0)
| CnRun base n size c ck c1 z ops c2 evs bad :
    counted data start0 base n size c ->
    (forall x, ck = Some x -> 0 <= ck_off x <= size) ->
    counting_resume X c ck = (c1, Ok z) -> trace (counting_source X) c1 ops = (c2, evs, bad) ->
    counted data start0 base (since_callback n evs) size c2
| CnFail base n size c ck c1 e :
    counted data start0 base n size c -> counting_resume X c ck = (c1, Err e) -> counted data start0 base n size c1
| CnSsc base n size c : counted data start0 base n size c -> counted data start0 base n size (s_setssc (counting_source X) c)
| CnSection base n size c a b c1 :
    counted data start0 base n size c -> a + b < two63 -> counting_section X c a b = Ok c1 ->
    counted data start0 (base + a) 0 b c1.

Lemma since_range {CK} (evs : list (tev CK)) : forall n, 0 <= n <= read_byte_threshold -> 0 <= since_callback n evs <= read_byte_threshold.
Proof.
  induction evs as [|ev evs IH]; intros n Hn; [exact Hn|]. cbn [since_callback]. cbv zeta. apply IH.
  assert (0 <= zlen (te_data ev)) by (unfold zlen; lia). destruct (n + zlen (te_data ev) >? read_byte_threshold) eqn:E; unfold read_byte_threshold in *; lia.
Qed.

(** The counter always is what [since_callback] says. *)
Lemma counting_count Y : forall ops (c c' : cstate Y) evs bad, 0 <= cs_n Y c <= read_byte_threshold ->
  trace (counting_source Y) c ops = (c', evs, bad) -> cs_n Y c' = since_callback (cs_n Y c) evs.
Proof.
  assert (Hb : forall s n (c : cstate Y), cs_n Y (counting_bump Y s n c) = (if cs_n Y c + n >? read_byte_threshold then 0 else cs_n Y c + n)).
  { intros s n c. unfold counting_bump. destruct (_ >? _); reflexivity. }
  assert (Hr : forall n m, 0 <= n <= read_byte_threshold -> 0 <= m -> 0 <= (if n + m >? read_byte_threshold then 0 else n + m) <= read_byte_threshold).
  { intros n m Hn Hm. destruct (n + m >? read_byte_threshold) eqn:E; unfold read_byte_threshold in *; lia. }
  induction ops as [|op ops IH]; intros c c' evs bad Hn.
  - cbn [trace]. intros [= <- <- <-]. reflexivity.
  - destruct op as [n| |]; cbn [trace].
    + destruct (s_read (counting_source Y) rec_cb c [] n) as [[c1 cks] r] eqn:E.
      change (counting_read Y (K := list (sckpt (s_ck (k_src Y)))) rec_cb c [] n = (c1, cks, r)) in E. unfold counting_read in E. cbv zeta in E.
      destruct (s_read (k_src Y) rec_cb (cs_src Y c) [] n) as [[s1 k1] [d e| |]]; injection E as <- <- <-.
      * destruct (trace (counting_source Y) (counting_bump Y s1 (zlen d) c) ops) as [[c2 evs1] bad1] eqn:Ht. intros [= <- <- <-].
        cbn [since_callback te_data]. cbv zeta.
        assert (Hn1 : 0 <= cs_n Y (counting_bump Y s1 (zlen d) c) <= read_byte_threshold) by (rewrite Hb; apply Hr; [exact Hn|unfold zlen; lia]).
        rewrite (IH _ _ _ _ Hn1 Ht), Hb. reflexivity.
      * intros [= <- <- <-]. reflexivity.
      * intros [= <- <- <-]. reflexivity.
    + destruct (s_readbyte (counting_source Y) rec_cb c []) as [[c1 cks] r] eqn:E.
      change (counting_readbyte Y (K := list (sckpt (s_ck (k_src Y)))) rec_cb c [] = (c1, cks, r)) in E. unfold counting_readbyte in E. cbv zeta in E.
      destruct (s_readbyte (k_src Y) rec_cb (cs_src Y c) []) as [[s1 k1] [b [e|]| |]]; injection E as <- <- <-.
      * destruct (trace (counting_source Y) (MkCount Y s1 (cs_n Y c) (cs_base Y c) (cs_log Y c)) ops) as [[c2 evs1] bad1] eqn:Ht. intros [= <- <- <-].
        cbn [since_callback te_data]. cbv zeta. rewrite (IH _ _ _ _ (Hn : 0 <= cs_n Y (MkCount Y s1 (cs_n Y c) (cs_base Y c) (cs_log Y c)) <= read_byte_threshold) Ht). cbn [cs_n]. change (zlen []) with 0. rewrite Z.add_0_r.
        destruct (cs_n Y c >? read_byte_threshold) eqn:Eq; [lia|reflexivity].
      * destruct (trace (counting_source Y) (counting_bump Y s1 1 c) ops) as [[c2 evs1] bad1] eqn:Ht. intros [= <- <- <-].
        cbn [since_callback te_data]. cbv zeta.
        assert (Hn1 : 0 <= cs_n Y (counting_bump Y s1 1 c) <= read_byte_threshold) by (rewrite Hb; apply Hr; [exact Hn|lia]).
        rewrite (IH _ _ _ _ Hn1 Ht), Hb. reflexivity.
      * intros [= <- <- <-]. reflexivity.
      * intros [= <- <- <-]. reflexivity.
    + destruct (trace (counting_source Y) (s_want (counting_source Y) c) ops) as [[c2 evs1] bad1] eqn:Ht. intros [= <- <- <-].
      cbn [since_callback te_data]. cbv zeta. change (zlen []) with 0. rewrite (IH _ _ _ _ (Hn : 0 <= cs_n Y (s_want (counting_source Y) c) <= read_byte_threshold) Ht). cbn [counting_source s_want counting_map cs_n]. rewrite Z.add_0_r.
      destruct (cs_n Y c >? read_byte_threshold) eqn:Eq; [lia|reflexivity].
Qed.

Lemma resume_over data start size s ck s' r : seek_over data start size s -> seek_resume s ck = (s', r) -> seek_over data start size s'.
Proof.
  intros (H1 & H2 & H3 & H4). unfold seek_resume.
  assert (Hgo : forall off, (let '(rs', e) := rs_seek (ss_rs s) (wrap64 (ss_start s + off)) in
     match e with
     | Some e => (MkSeek rs' (ss_br s) (ss_ssc s) (ss_want s) (ss_start s) off (ss_size s), Err e)
     | None => (MkSeek rs' (Some buf_empty) (ss_ssc s) (ss_want s) (ss_start s) off (ss_size s), Ok off)
     end) = (s', r) -> seek_over data start size s').
  { intros off. unfold rs_seek. destruct (match rs_sorc (ss_rs s) with b :: _ => b | [] => false end); [|destruct (_ <? 0)];
      intros [= <- <-]; unfold seek_over; cbn [ss_start ss_size ss_rs rs_data]; auto. }
  destruct ck as [x|]; [|apply Hgo]. destruct (ck_off x <? 0); [|apply Hgo]. intros [= <- <-]. unfold seek_over. auto.
Qed.

Lemma counted_inv data start0 base n size c : counted data start0 base n size c ->
  seek_over data (start0 + base) size (cs_src X c) /\ cs_base X c = base /\ cs_n X c = n /\ 0 <= n <= read_byte_threshold.
Proof.
  induction 1 as [size s0 Ho|base n size c ck c1 z ops c2 evs bad Hc IH Hck Hr Ht|base n size c ck c1 e Hc IH Hr|base n size c Hc IH|base n size c a b c1 Hc IH Hov Hs].
  - cbn [counting_new cs_src cs_base cs_n]. rewrite Z.add_0_r. split; [exact Ho|]. splits; auto; unfold read_byte_threshold; lia.
  - destruct IH as (I1 & I2 & I3 & I4). unfold counting_resume in Hr. change (k_src X) with seek_source in Hr.
    destruct (s_resume seek_source (cs_src X c) ck) as [s2 r2] eqn:Hr2. change (seek_resume (cs_src X c) ck = (s2, r2)) in Hr2.
    injection Hr as <- ->. destruct (seek_resumed _ _ _ _ _ _ _ I1 Hck Hr2) as (_ & Hz & m & Hat).
    destruct (counting_trace X _ _ _ _ _ Ht) as [T1 T2]. cbn [cs_src cs_base] in T1, T2.
    change (k_src X) with seek_source in T1.
    destruct I1 as (O1 & O2 & O3 & O4 & O5 & O6 & O7).
    destruct (seek_trace_full data (start0 + base) size false O5 _ _ _ _ _ _ _ Hat T1) as (_ & _ & (m' & (S1 & S2 & S3 & _) & _) & _).
    split; [unfold seek_over; splits; auto|]. split; [congruence|].
    assert (Hn0 : 0 <= cs_n X (MkCount X s2 (cs_n X c) (cs_base X c) (cs_log X c)) <= read_byte_threshold) by (cbn [cs_n]; rewrite I3; exact I4).
    pose proof (counting_count X ops _ c2 evs bad Hn0 Ht) as Hn. cbn [cs_n] in Hn. rewrite I3 in Hn.
    split; [exact Hn|]. apply since_range. exact I4.
  - destruct IH as (I1 & I2 & I3 & I4). unfold counting_resume in Hr. change (k_src X) with seek_source in Hr.
    destruct (s_resume seek_source (cs_src X c) ck) as [s2 r2] eqn:Hr2. change (seek_resume (cs_src X c) ck = (s2, r2)) in Hr2.
    injection Hr as <- Hrr. cbn [cs_src cs_base cs_n]. split; [exact (resume_over _ _ _ _ _ _ _ I1 Hr2)|]. auto.
  - destruct IH as (I1 & I2 & I3 & I4). split; [|auto]. exact I1.
  - destruct IH as (I1 & I2 & I3 & I4). unfold counting_section in Hs. change (k_section X) with seek_section in Hs.
    destruct (seek_section (cs_src X c) a b) as [s1| | |] eqn:Es; try discriminate Hs. injection Hs as <-. cbn [cs_src cs_base cs_n].
    split; [|splits; auto; unfold read_byte_threshold; lia].
    destruct (proj1 (proj2 (nest_over [(a, b)] data (start0 + base) size (cs_src X c) I1 ltac:(intros a' b' [[= <- <-]|[]]; exact Hov))) s1) as (Hf & _).
    { cbn [nest]. rewrite Es. reflexivity. }
    destruct Hf as (F1 & F2 & F3 & _). pose proof I1 as (O1 & O2 & O3 & O4 & O5 & O6 & O7). unfold seek_section in Es.
    destruct (a <? 0); [discriminate Es|]. destruct (b <? 0); [discriminate Es|]. destruct (_ >? _); [discriminate Es|]. injection Es as <-.
    unfold seek_over. cbn [ss_start ss_size ss_rs]. rewrite O1, wrap64_id by (unfold is_int64, two63 in *; lia). splits; auto; lia.
Qed.

(** C10. However the counting source was used before: after a successful Resume at [z] the
    callback receives exactly the values [expect_log] says -- the position reached, relative to
    the outermost source, at every operation after which more than 131072 bytes have been
    delivered since the last callback, whether in this run or before it -- and they increase. *)
Theorem C10_counting_any_time data start0 base n size c ck c1 z ops c2 evs bad :
  counted data start0 base n size c ->
  (forall x, ck = Some x -> 0 <= ck_off x <= size) ->
  counting_resume X c ck = (c1, Ok z) -> trace (counting_source X) c1 ops = (c2, evs, bad) ->
  let vals := expect_log read_byte_threshold base z n evs in
  rev (cs_log X c2) = rev (cs_log X c) ++ vals /\ 0 <= n <= read_byte_threshold /\
  (forall v, In v vals -> exists pre ev post, evs = pre ++ ev :: post /\ v = base + z + zlen (tdata (pre ++ [ev]))) /\
  Sorted Z.le vals /\
  (* the bytes delivered are those of the section, from z on *)
  tdata evs = slice data (Z.to_nat (start0 + base + z)) (length (tdata evs)) /\ z + zlen (tdata evs) <= size.
Proof.
  intros Hc Hck Hr Ht vals. destruct (counted_inv _ _ _ _ _ _ Hc) as (I1 & I2 & I3 & I4).
  unfold counting_resume in Hr. change (k_src X) with seek_source in Hr.
  destruct (s_resume seek_source (cs_src X c) ck) as [s2 r2] eqn:Hr2. change (seek_resume (cs_src X c) ck = (s2, r2)) in Hr2.
  injection Hr as <- ->. destruct (seek_resumed _ _ _ _ _ _ _ I1 Hck Hr2) as (_ & Hz & m & Hat).
  pose proof I1 as (O1 & O2 & O3 & O4 & O5 & O6 & O7).
  destruct (counting_trace X _ _ _ _ _ Ht) as [T1 T2]. cbn [cs_src cs_base] in T1, T2. change (k_src X) with seek_source in T1.
  destruct (seek_trace_full data (start0 + base) size false O5 _ _ _ _ _ _ _ Hat T1) as (_ & Hok & _).
  assert (Hn0 : 0 <= cs_n X (MkCount X s2 (cs_n X c) (cs_base X c) (cs_log X c)) <= read_byte_threshold) by (cbn [cs_n]; rewrite I3; exact I4).
  destruct (counting_log data (start0 + base) size false O5 ops (MkCount X s2 (cs_n X c) (cs_base X c) (cs_log X c)) (Z.to_nat z) m c2 evs bad Hat Hn0 Ht) as [Hlog _].
  cbn [cs_base cs_n cs_log] in Hlog. rewrite I2, I3, Z2Nat.id in Hlog by lia.
  split; [rewrite Hlog, rev_app_distr, rev_involutive; reflexivity|]. split; [exact I4|].
  split; [intros v Hv; exact (expect_log_in _ _ _ _ _ _ Hv)|]. split; [exact (proj1 (expect_log_sorted _ _ _ _ _))|].
  pose proof (seek_over_len _ _ _ _ I1) as Hl.
  assert (Hzl : (Z.to_nat z <= length (seek_data data (start0 + base) size))%nat) by (unfold zlen in Hl; lia).
  destruct (tr_ok_data _ _ _ _ _ _ Hok Hzl) as [D1 D2].
  assert (Hq : forall q : nat, (Z.to_nat z + q <= length (seek_data data (start0 + base) size))%nat -> z + Z.of_nat q <= size) by (unfold zlen in Hl; lia).
  split; [|exact (Hq _ D2)]. refine (eq_trans D1 _). unfold seek_data. rewrite slice_slice by (unfold zlen in Hl; lia). f_equal. lia.
Qed.

(** A concrete case: 140000 bytes; a section is taken after 10 bytes were read; 131072 bytes of
    it are read in one run (no callback), one more byte in the next (callback). *)
Definition ok_or {A} (d : A) (r : res A) : A := match r with Ok x => x | _ => d end.
Definition is_fine {A} (r : res A) : bool := match r with Ok _ => true | _ => false end.
Definition cg_resume (c : cstate X) ck := counting_resume X c ck.
Definition cg_run (c : cstate X) ck ops := trace (counting_source X) (fst (cg_resume c ck)) ops.
Definition cg_after (c : cstate X) ck ops : cstate X := fst (fst (cg_run c ck ops)).
Definition cg_section (c : cstate X) a b : cstate X := ok_or c (counting_section X c a b).
Lemma cg_run_ok data start0 base n size c ck z ops : counted data start0 base n size c ->
  (forall x, ck = Some x -> 0 <= ck_off x <= size) -> snd (cg_resume c ck) = Ok z ->
  counted data start0 base (since_callback n (snd (fst (cg_run c ck ops)))) size (cg_after c ck ops).
Proof.
  intros Hc Hck. unfold cg_after, cg_run, cg_resume. destruct (counting_resume X c ck) as [c1 r] eqn:Er. cbn [fst snd]. intros ->.
  destruct (trace (counting_source X) c1 ops) as [[c2 evs] bad] eqn:Et. cbn [fst snd]. eapply CnRun; eassumption.
Qed.
Lemma cg_section_ok data start0 base n size c a b : counted data start0 base n size c -> a + b < two63 ->
  is_fine (counting_section X c a b) = true -> counted data start0 (base + a) 0 b (cg_section c a b).
Proof.
  intros Hc Hab. unfold cg_section. destruct (counting_section X c a b) as [c1| | |] eqn:E; try discriminate. intros _. eapply CnSection; eassumption.
Qed.
Definition ca_data := repeat "a"%char (Z.to_nat 140000).
Definition ca_s0 := seek_new (ex_rs ca_data) 140000.
Definition ca_0 : cstate X := counting_new X ca_s0.
Definition ca_1 : cstate X := cg_after ca_0 None [CRead 10].
Definition ca_2 : cstate X := cg_section ca_1 1000 139000.
Definition ca_3 : cstate X := cg_after ca_2 None [CRead (Z.to_nat 131072)].
Definition ca_ck : option (sckpt unit) := Some (MkCk 7 (Some tt)).
Definition ca_4 : cstate X := cg_after ca_3 ca_ck [CReadByte].

Lemma ca_e1 : snd (cg_resume ca_0 None) = Ok 0. Proof. vm_compute. reflexivity. Qed.
Lemma ca_e3 : is_fine (counting_section X ca_1 1000 139000) = true. Proof. vm_compute. reflexivity. Qed.
Lemma ca_e4 : snd (cg_resume ca_2 None) = Ok 0. Proof. vm_compute. reflexivity. Qed.
Lemma ca_e6 : snd (cg_resume ca_3 ca_ck) = Ok 7. Proof. vm_compute. reflexivity. Qed.
Lemma ca_e8 : since_callback 0 (snd (fst (cg_run ca_2 None [CRead (Z.to_nat 131072)]))) = 131072. Proof. vm_compute. reflexivity. Qed.
Lemma ca_e9 : cs_log X ca_3 = []. Proof. vm_compute. reflexivity. Qed.
Lemma ca_e10 : cs_log X ca_4 = [1008]. Proof. vm_compute. reflexivity. Qed.
Lemma ca_over data n : 0 <= n -> n < two63 -> zlen data = n -> seek_over data 0 n (seek_new (ex_rs data) n).
Proof.
  intros H1 H2 H3. unfold seek_over, seek_new. cbn [ss_start ss_size ss_rs ex_rs rs_data]. splits; auto; lia.
Qed.
Lemma ca_len : zlen ca_data = 140000. Proof. vm_compute. reflexivity. Qed.
Lemma ca_c0 : counted ca_data 0 0 0 140000 ca_0.
Proof. exact (CnNew ca_data 0 140000 ca_s0 (ca_over ca_data 140000 ltac:(lia) ltac:(unfold two63; lia) ca_len)). Qed.
Lemma ca_c1 : counted ca_data 0 0 (since_callback 0 (snd (fst (cg_run ca_0 None [CRead 10])))) 140000 ca_1.
Proof. exact (cg_run_ok ca_data 0 0 0 140000 ca_0 None 0 [CRead 10] ca_c0 ltac:(discriminate) ca_e1). Qed.
Lemma ca_c2 : counted ca_data 0 (0 + 1000) 0 139000 ca_2.
Proof. exact (cg_section_ok ca_data 0 0 _ 140000 ca_1 1000 139000 ca_c1 ltac:(unfold two63; lia) ca_e3). Qed.
Lemma ca_c3 : counted ca_data 0 1000 131072 139000 ca_3.
Proof.
  pose proof (cg_run_ok ca_data 0 (0 + 1000) 0 139000 ca_2 None 0 [CRead (Z.to_nat 131072)] ca_c2 ltac:(discriminate) ca_e4) as H.
  rewrite ca_e8 in H. exact H.
Qed.

Example C10_again_example :
  counted ca_data 0 0 0 140000 ca_0 /\
  is_fine (counting_section X ca_1 1000 139000) = true /\
  counted ca_data 0 1000 131072 139000 ca_3 /\ cs_log X ca_3 = [] /\
  snd (cg_resume ca_3 ca_ck) = Ok 7 /\ cs_log X ca_4 = [1008].
Proof.
  exact (conj ca_c0 (conj ca_e3 (conj ca_c3 (conj ca_e9 (conj ca_e6 ca_e10))))).
Qed.
