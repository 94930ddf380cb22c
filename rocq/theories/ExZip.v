(** ExZip.v -- a concrete archive and concrete runs, to show that the
    hypotheses of the theorems in Props_zip.v can be met. *)
From Verif Require Import Base Base_proofs Source Seek Decomp CodecSpec Drive ExCodec Copier Sink Zip SinkSpec ZipSpec ExSink.

Definition exC : codec := ex_codec false false.
Definition exF : nat := 100%nat.

(** A directory, a stored file, a "deflated" file (format of ExCodec.v), a file
    with another method and a symlink. *)
Definition exA : bytes := s2b "hello" ++ ex_in.
Definition ex_m0 := MkZm (MkZf (s2b "d/") 0 0 (2 ^ 31) 0 0) 0 [] EEof.
Definition ex_m1 := MkZm (MkZf (s2b "d/a") 5 5 0 0 0) 0 (s2b "hello") EEof.
Definition ex_m2 := MkZm (MkZf (s2b "b") 8 6 0 0 8) 5 ex_out EEof.
Definition ex_m3 := MkZm (MkZf (s2b "z") 1 1 0 0 14) 0 (s2b "q") EEof.
Definition ex_m4 := MkZm (MkZf (s2b "l") 1 1 (2 ^ 27) 0 0) 0 (s2b "b") EEof.
Definition ex_ms : list zmember := [ex_m0; ex_m1; ex_m2; ex_m3; ex_m4].

Definition ex_io : nat -> zio := fun i =>
  let m := nth i ex_ms ex_m0 in
  MkZio (Ok (zm_off m)) (fun off n => MkRs (slice exA (Z.to_nat off) (Z.to_nat n)) 0 [] []) (Ok ([zm_data m], None)).

Lemma ex_zm_ok : Forall (zm_ok exA exC exF false) ex_ms.
Proof.
  repeat constructor.
  - exists 5%nat, true, false.
    change (stk_den false (s2b "hello") 0 5 KSeek (s2b "hello") EEof 5 true false false).
    exact (DenSeek false (s2b "hello") 0 5 ltac:(lia) ltac:(lia) ltac:(unfold two63; lia)).
  - exists 36%nat, true, true.
    change (stk_den false ex_in 0 8 (KDec exC flate_cfg exF KSeek) ex_out EEof (30 + 6) true true false).
    refine (DenDec false ex_in 0 8 exC flate_cfg 100 KSeek ex_in EEof 8 false false 30 ex_out EEof true
      _ _ _ _ _ _ _ _ _); try reflexivity; try discriminate; try lia.
    + exact (DenSeek false ex_in 0 8 ltac:(lia) ltac:(lia) ltac:(unfold two63; lia)).
    + apply ex_saves_ok.
    + right. vm_compute. splits; try discriminate; exact I.
    + intros _. split; [reflexivity|]. vm_compute. splits; try reflexivity; exact I.
Qed.

Lemma ex_archive : zarchive exA exC exF false map_laws ex_ms.
Proof. split; [exact ex_zm_ok|]. repeat constructor. Qed.

Lemma ex_ios : ios_ok exA false ex_ms ex_io.
Proof.
  intros i m Hm. unfold ex_io. rewrite (nth_error_nth _ _ _ Hm). split; [|split]; cbn.
  - reflexivity.
  - intros off n. split; [reflexivity|]. intros H; discriminate.
  - apply app_nil_r.
Qed.
Lemma ex_io_good i : io_good (ex_io i).
Proof. split; [|split]; cbn; eauto. intros. split; cbn; auto. Qed.

(** A save consumer that asks for a checkpoint after every chunk, keeps all of
    them, and stops at the n-th one. *)
Definition ex_saver {CK} : saver CK unit :=
  MkSaver (nat * list (eckpt CK unit))%type (fun s _ => (s, true))
    (fun s c => ((pred (fst s), snd s ++ [c]), inl (fst s =? 1)%nat)).

Definition ex_run n c st := zip_resume map_sink exC exF ex_saver (zfiles ex_ms) ex_io 50 c st (n, []).
Definition ex_first := ex_run 1%nat None map_empty.

(** The same in a process that may die (but does not), then resumed. *)
Definition ex_first0 := zip_resume (crashing map_sink) exC exF ex_saver (zfiles ex_ms) ex_io 50 None (map_empty, None) (1%nat, []).
Definition ex_ck : option (zeck exC exF) := hd_error (map fst (zo_log _ _ _ _ ex_first0)).
Definition ex_second := ex_run 0%nat ex_ck (fst (zo_sink _ _ _ _ ex_first0)).

(** stopped in the middle of "b", at byte 4 of 6; then completed *)
Example ex_stopped :
  zo_res _ _ _ _ ex_first = Err EStop /\ zo_res _ _ _ _ ex_first0 = Err EStop /\
  option_map (fun c => (ec_index c, option_map en_woff (ec_entry c))) ex_ck = Some (2, Some 4) /\
  ms_view (zo_sink _ _ _ _ ex_first) (s2b "b") = Some (NFile (s2b "aabb")) /\
  ms_view (fst (zo_sink _ _ _ _ ex_first0)) (s2b "b") = Some (NFile (s2b "aabb")).
Proof. splits; vm_compute; reflexivity. Qed.

Example ex_completed :
  zo_res _ _ _ _ ex_second = Ok (zip_entries (zfiles ex_ms)) /\
  map (ms_view (zo_sink _ _ _ _ ex_second)) [s2b "d/"; s2b "d/a"; s2b "b"; s2b "z"; s2b "l"; s2b "x"] =
    [Some NDir; Some (NFile (s2b "hello")); Some (NFile (s2b "aabbcc")); Some (NFile (s2b "q")); Some (NLink (s2b "b")); None].
Proof. split; vm_compute; reflexivity. Qed.

Lemma ex_life : zlife exA exC exF false ex_ms map_laws map_empty false (fst (zo_sink _ _ _ _ ex_first0)) (rev (map fst (zo_log _ _ _ _ ex_first0))).
Proof. exact (ZlFresh exA exC exF false ex_ms map_laws map_empty false map_empty [] ex_saver ex_io 50 (1%nat, []) None _
          (ZlStart _ _ _ _ _ _ _ _) ex_ios eq_refl). Qed.

Lemma ex_ck_some : exists c, ex_ck = Some c /\ ec_index c = 2.
Proof.
  assert (H : option_map ec_index ex_ck = Some 2) by (vm_compute; reflexivity).
  destruct ex_ck as [c|]; [|discriminate]. injection H as H. eauto.
Qed.

Lemma ex_zrun : zrun exA exC exF false ex_ms map_laws map_empty false ex_saver ex_ck ex_io 50 (fst (zo_sink _ _ _ _ ex_first0)) ex_second.
Proof.
  destruct ex_ck_some as (c & Hc & _). pose proof ex_life as Hl. unfold ex_second, ex_run. rewrite Hc.
  unfold ex_ck in Hc. destruct (map fst (zo_log _ _ _ _ ex_first0)) as [|c' rest]; [discriminate|]. injection Hc as ->.
  cbn [rev] in Hl. eapply (ZrResume _ _ _ _ _ _ _ _ _ _ (rev rest) c []); [exact Hl|exact ex_ios|reflexivity].
Qed.
