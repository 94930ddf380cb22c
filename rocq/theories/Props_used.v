(** Props_used.v -- property C79: using one source, or one extractor, for several calls of Resume.
    [urun pol data start size k F L st0 SV g q c fuel st out]: out is the outcome
    of a call of Resume with checkpoint c and a source that earlier runs, stopped, failed
    or done, have used (UsedSpec.v). *)
From Verif Require Import Base Base_proofs Source Contract Seek Decomp CodecSpec Drive SpoilSpec Stack_proofs Copier Sink SinkSpec Zip ZipSpec
  Settle_proofs Zip2_proofs Zip3_proofs Tar TarSpec TarRead_proofs Tar_proofs Tar2_proofs ExSink ExTar Again Used UsedSpec Used_proofs.
From Coq Require Import QArith.
Open Scope Z_scope.

Section Props.
  Context (pol : bool) (data : bytes) (start size : Z) (k : stk) (D : bytes) (tm : gerr) (F : tfmt) (N : nat).
  Context (ms : list tmember) (ok : bool) (SK : sink) (L : sink_laws SK).
  Context (HA : tarchive pol data start size k D tm F N ms ok L).

  Lemma urun_archive : exists LL B, forall st0, kl_inv L st0 -> forall SV g q c fuel st out, urun pol data start size k F L st0 SV g q c fuel st out ->
    exists prior, RO (stk_source k) D tm LL (fun _ _ => False) ok ms SK L SV (kl_view L st0) prior (-1) out /\
      (g = true -> q -> kl_clean L st -> saver_goes_on SV -> tm = EEof -> ok = true -> tsound L ms ->
       (B < fuel)%nat -> exists l, to_res _ _ _ out = Ok l).
  Proof.
    destruct (ta_laws _ _ _ _ _ _ _ _ _ _ _ _ HA) as (LL & H1 & H2 & H3 & _ & _). exists LL, (lw_bound LL + N + length ms + 2)%nat.
    intros st0 Hi SV g q c fuel st out Hrun.
    exact (urun_ok pol data start size k D tm F N ms ok L st0 LL H2 H3 (ta_items _ _ _ _ _ _ _ _ _ _ _ _ HA) (ta_layout _ _ _ _ _ _ _ _ _ _ _ _ HA) H1 Hi SV g q c fuel st out Hrun).
  Qed.

  (** C79. Whatever earlier runs have done with the source: a run that ends without
      error leaves the sink with exactly the archive, and lists its files; no run panics. *)
  Theorem C79_reused_exact_partial st0 SV g q c fuel st out : kl_inv L st0 ->
    urun pol data start size k F L st0 SV g q c fuel st out ->
    match to_res _ _ _ out with
    | Ok l => extracted L (titems ms) (kl_view L st0) (to_sink _ _ _ out) /\ ok = true /\ l = tfiles L ms
    | Panic => False
    | _ => True
    end.
  Proof.
    intros Hi Hrun. destruct urun_archive as (LL & B & H).
    destruct (H st0 Hi SV g q c fuel st out Hrun) as (prior & [_ _ _ _ _ _ _ R _] & _).
    destruct (to_res _ _ _ out) as [l|e| |]; auto.
    destruct R as (R1 & R2 & R3 & _). splits; auto. apply settled_extracted. exact R1.
  Qed.

  (** ... and it does end without error if nothing fails and nobody asks it to stop. *)
  Theorem C79_reused_completes_partial : tm = EEof -> ok = true -> tsound L ms ->
    exists B, forall st0 SV (q : Prop) c fuel st out, kl_inv L st0 ->
      urun pol data start size k F L st0 SV true q c fuel st out -> q ->
      kl_clean L st -> saver_goes_on SV -> (B < fuel)%nat ->
      exists l, to_res _ _ _ out = Ok l /\ extracted L (titems ms) (kl_view L st0) (to_sink _ _ _ out).
  Proof.
    intros Ht Hok Hs. destruct urun_archive as (LL & B & H). exists B.
    intros st0 SV q c fuel st out Hi Hrun Hq Hc Hsv Hf.
    destruct (H st0 Hi SV true q c fuel st out Hrun) as (prior & _ & HL).
    destruct (HL eq_refl Hq Hc Hsv Ht Hok Hs Hf) as (l & Hl). exists l. split; [exact Hl|].
    pose proof (C79_reused_exact_partial st0 SV true q c fuel st out Hi Hrun) as HE. rewrite Hl in HE. tauto.
  Qed.
End Props.

(** ** What does not hold *)
(** A tar of one file, not compressed; the reader first returns the header, then
    two bytes of the file. *)
Definition uu_in : bytes := s2b "ffbb66aabbccppeeeeee".
Definition uu_m := MkTm (MkTh (s2b "b") 6 420 TfReg [] 6 2) 6 (s2b "aabbcc").
Definition uu_rs : rstate := MkRs uu_in 0 [RsChunk 5 false; RsChunk 1 false] [].
Lemma uu_rs_ok : rs_ok false uu_in uu_rs.
Proof. split; [reflexivity|discriminate]. Qed.
Lemma uu_good : rs_good uu_rs. Proof. split; cbn; intuition discriminate. Qed.
Lemma uu_archive : tarchive false uu_in 0 20 KSeek uu_in EEof et_fmt 5 [uu_m] true map_laws.
Proof.
  split.
  - do 3 eexists. exact (DenSeek false uu_in 0 20 ltac:(lia) ltac:(lia) ltac:(unfold two63; lia)).
  - apply (TlMem et_fmt uu_in EEof 5 0 0 (tm_hdr uu_m) 6); [reflexivity|apply Nat.leb_le; reflexivity|].
    apply (TlEnd et_fmt uu_in EEof 5 12 2 20). reflexivity.
  - repeat constructor.
Qed.

(** asks for a checkpoint after every chunk, and keeps it and stops whenever it gets one *)
Definition uu_saver : saver unit tstate := MkSaver (list (eckpt unit tstate)) (fun s _ => (s, true)) (fun s c => (s ++ [c], inl true)).
Notation US := (stk_source KSeek).
Notation uresume := (tar_resume_left map_sink et_fmt US uu_saver).
Definition uu_src := tsrc 0 20 KSeek uu_rs.
Definition uu_first := uresume uu_src None 100 None map_empty [].
Definition uu_ck : eckpt unit tstate :=
  MkEck (Some (MkCk 8 None)) 0 (Some (MkEntry (s2b "b") EkFile 420 0 6 2 [])) (Some (8 # 20)%Q) (Some (MkTs (Some []) (Some (MkSr 8 4 2)))).
Definition uu_src2 : sstate := match snd uu_first with Some l => tl_src _ _ _ l | None => uu_src end.

Lemma some_inj {A} (a b : A) : Some a = Some b -> a = b. Proof. intros [= ->]. reflexivity. Qed.

(** Started once more from its checkpoint, the source still has the request for
    a checkpoint that was made when the first run was already stopping: it emits the same checkpoint again. *)
Lemma uu_step_res cl st v : to_res _ _ _ (fst (uresume uu_src2 cl 100 (Some uu_ck) st v)) = Err EStop.
Proof. destruct cl as [cl|]; vm_compute; reflexivity. Qed.
Lemma uu_step_ck cl st v : map fst (to_log _ _ _ (fst (uresume uu_src2 cl 100 (Some uu_ck) st v))) = [uu_ck].
Proof. destruct cl as [cl|]; vm_compute; reflexivity. Qed.
Lemma uu_step_src cl st v : option_map (tl_src _ _ _) (snd (uresume uu_src2 cl 100 (Some uu_ck) st v)) = Some uu_src2.
Proof. destruct cl as [cl|]; vm_compute; reflexivity. Qed.
Lemma uu_step cl st v : exists out cl', uresume uu_src2 cl 100 (Some uu_ck) st v = (out, Some (MkTl map_sink US uu_saver uu_src2 cl')) /\
  to_res _ _ _ out = Err EStop /\ map fst (to_log _ _ _ out) = [uu_ck].
Proof.
  pose proof (uu_step_res cl st v) as H1. pose proof (uu_step_ck cl st v) as H2. pose proof (uu_step_src cl st v) as H3.
  destruct (uresume uu_src2 cl 100 (Some uu_ck) st v) as [out [[src' cl']|]]; cbn [fst snd option_map tl_src] in *; [|discriminate H3].
  apply some_inj in H3. subst src'. exists out, cl'. auto.
Qed.

Lemma kept_map {CK DT ST} (c : option (eckpt CK DT)) (log : list (eckpt CK DT * ST)) c' : map fst log = [c'] -> kept c log = Some c'.
Proof. destruct log as [|[a b] [|]]; try discriminate. intros [= ->]. reflexivity. Qed.

Lemma uu_forever : forall left k cl st v, tar_again_same map_sink et_fmt US uu_saver 100 left k uu_src2 cl (Some uu_ck) st v = None.
Proof.
  induction left as [|left IH]; intros k cl st v; cbn [tar_again_same]; destruct (uu_step cl st v) as (out & w & E & H1 & H2);
    change (tar_resume_left map_sink et_fmt US uu_saver uu_src2 cl 100 (Some uu_ck) st v) with (uresume uu_src2 cl 100 (Some uu_ck) st v); rewrite E, H1.
  - reflexivity.
  - rewrite (kept_map _ _ _ H2). apply IH.
Qed.

Lemma uu_first_res : to_res _ _ _ (fst uu_first) = Err EStop. Proof. vm_compute. reflexivity. Qed.
Lemma uu_first_ck : map fst (to_log _ _ _ (fst uu_first)) = [uu_ck]. Proof. vm_compute. reflexivity. Qed.
Lemma uu_first_src : option_map (tl_src _ _ _) (snd uu_first) = Some uu_src2. Proof. vm_compute. reflexivity. Qed.
Lemma uu_first_left : exists out cl', uu_first = (out, Some (MkTl map_sink US uu_saver uu_src2 cl')) /\
  to_res _ _ _ out = Err EStop /\ map fst (to_log _ _ _ out) = [uu_ck].
Proof.
  pose proof uu_first_res as H1. pose proof uu_first_ck as H2. pose proof uu_first_src as H3.
  destruct uu_first as [out [[src' cl']|]]; cbn [fst snd option_map tl_src] in *; [|discriminate H3].
  apply some_inj in H3. subst src'. exists out, cl'. auto.
Qed.

(** C79, refuted: with one source throughout, a consumer that stops at every checkpoint never
    gets to the end, however often the extraction is resumed; with a new source for each run it does (C66),
    here after one stop. *)
Theorem C79_reused_progress_refuted :
  tarchive false uu_in 0 20 KSeek uu_in EEof et_fmt 5 [uu_m] true map_laws /\ rs_ok false uu_in uu_rs /\ rs_good uu_rs /\
  (forall left, tar_again_same map_sink et_fmt US uu_saver 100 left 0 (tsrc 0 20 KSeek uu_rs) None None map_empty [] = None) /\
  option_map fst (tar_again map_sink et_fmt US uu_saver (fun _ => tsrc 0 20 KSeek uu_rs) 100 5 0 None map_empty []) = Some 1%nat.
Proof.
  split; [exact uu_archive|]. split; [exact uu_rs_ok|]. split; [exact uu_good|]. split.
  - intros left. destruct uu_first_left as (out & cl' & E & H1 & H2). unfold uu_first in E. unfold uu_src in E.
    destruct left as [|left]; cbn [tar_again_same]; rewrite E, H1; [reflexivity|].
    rewrite (kept_map _ _ _ H2). apply uu_forever.
  - vm_compute. reflexivity.
Qed.

Definition stopper_not {CK} : saver CK tstate := MkSaver unit (fun n _ => (n, false)) (fun n _ => (n, inl false)).

(** C79, refuted: a checkpoint that the consumer is given while Resume repositions a used
    source belongs to the run before. The checkpoint [uu_ck] has lost its
    source checkpoint; while the data before it is discarded, the old
    closure is asked to save. If the new process dies when it has opened the file, the file
    is shorter than that checkpoint says, and resuming from it, which reports success, leaves a wrong file. *)
Definition uu_lost : eckpt unit tstate := MkEck None (ec_index uu_ck) (ec_entry uu_ck) (ec_prog uu_ck) (ec_data uu_ck).
Definition uu_a := tar_resume_left (crashing map_sink) et_fmt US uu_saver uu_src None 100 None (map_empty, None) [].
Definition uu_b : tout (crashing map_sink) US uu_saver :=
  match snd uu_a with
  | Some l => fst (tar_resume_left (crashing map_sink) et_fmt US uu_saver (tl_src _ _ _ l) (tl_cl _ _ _ l) 100 (Some uu_lost) (fst (to_sink _ _ _ (fst uu_a)), Some 1%nat) [])
  | None => fst uu_a
  end.
Definition uu_c := tar_resume map_sink et_fmt US (@stopper_not unit) uu_src 100 (hd_error (to_sv _ _ _ uu_b)) (fst (to_sink _ _ _ uu_b)) tt.

Lemma uu_a_log : rev (map fst (to_log _ _ _ (fst uu_a))) = [] ++ uu_ck :: []. Proof. vm_compute. reflexivity. Qed.
Lemma uu_a_left : option_map (fun s => (s, true)) (left_over KSeek false (snd uu_a)) = Some (uu_src2, true). Proof. vm_compute. reflexivity. Qed.

Lemma ulife_eq st c1 c2 s1 s2 : ulife false uu_in 0 20 KSeek et_fmt map_laws map_empty st c1 s1 -> c1 = c2 -> s1 = s2 ->
  ulife false uu_in 0 20 KSeek et_fmt map_laws map_empty st c2 s2.
Proof. intros H -> ->. exact H. Qed.
Lemma uu_a_eq : (fst uu_a, snd uu_a) = tar_resume2 (crashing map_sink) et_fmt US uu_saver (fun _ u => (u, COk)) tt uu_src 100 None (map_empty, None) [].
Proof. rewrite <- surjective_pairing. unfold uu_a, tar_resume_left. reflexivity. Qed.

(** Both runs are among those that the theorems above speak about. *)
Example C79_example_life : ulife false uu_in 0 20 KSeek et_fmt map_laws map_empty (fst (to_sink _ _ _ (fst uu_a))) ([] ++ uu_lost :: [uu_ck]) (Some (uu_src2, true)).
Proof.
  assert (H0 : ulife false uu_in 0 20 KSeek et_fmt map_laws map_empty map_empty [] (Some (uu_src, true))).
  { exact (UlSource false uu_in 0 20 KSeek et_fmt map_laws map_empty map_empty [] None uu_rs true
      (UlStart false uu_in 0 20 KSeek et_fmt map_laws map_empty) uu_rs_ok (fun _ => uu_good)). }
  pose proof (UlFresh false uu_in 0 20 KSeek et_fmt map_laws map_empty map_empty [] uu_src true None uu_saver unit (fun _ u => (u, COk)) tt 100 [] None (fst uu_a) (snd uu_a)
    H0 (or_introl eq_refl) (fun c u (E : COk = CPanic) => ltac:(discriminate E)) uu_a_eq) as H.
  pose proof (ulife_eq _ _ _ _ _ H uu_a_log uu_a_left) as H'.
  exact (UlLost false uu_in 0 20 KSeek et_fmt map_laws map_empty _ [] uu_ck [] _ H').
Qed.
(** The used source, resumed with a consumer that does not stop it, completes. *)
Definition uu_cb : callback unit (unit * unit) := fun _ u => (u, COk).
Definition uu_d := tar_resume2 map_sink et_fmt US (@stopper_not unit) uu_cb tt uu_src2 100 (Some uu_lost) (fst (to_sink _ _ _ (fst uu_a))) tt.
Example C79_example : urun false uu_in 0 20 KSeek et_fmt map_laws map_empty (@stopper_not unit) true (forall sc u, snd (uu_cb sc u) = COk)
    (Some uu_lost) 100 (fst (to_sink _ _ _ (fst uu_a))) (fst uu_d) /\
  ms_view (to_sink _ _ _ (fst uu_d)) (s2b "b") = Some (NFile (s2b "aabbcc")).
Proof.
  split; [|vm_compute; reflexivity].
  refine (UrResume false uu_in 0 20 KSeek et_fmt map_laws map_empty (@stopper_not unit) _ [] uu_lost [uu_ck] uu_src2 true unit uu_cb tt 100 tt (fst uu_d) (snd uu_d) C79_example_life _ _).
  - intros c u. discriminate.
  - rewrite <- surjective_pairing. reflexivity.
Qed.

Theorem C79_stale_checkpoint_refuted :
  (* the run had not saved anything itself; the only checkpoint the consumer got is the old closure's *)
  to_log _ _ _ uu_b = [] /\ option_map (fun c => ec_entry c) (hd_error (to_sv _ _ _ uu_b)) = Some None /\
  (match to_res _ _ _ uu_c with Ok l => map en_woff l | _ => [] end) = [6] /\
  ms_view (to_sink _ _ _ uu_c) (s2b "b") = Some (NFile (s2b "aa")).
Proof. split; [|split; [|split]]; vm_compute; reflexivity. Qed.
