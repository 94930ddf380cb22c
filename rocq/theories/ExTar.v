(** ExTar.v -- a small concrete tar format, archive and runs, to show that the
    hypotheses of the theorems in Props_tar.v can be met and to exhibit counterexamples.
    Format: a header is 6 bytes, of which the 1st is the type, the 3rd the name,
    the 5th the size (a digit) or the link target; 2 bytes of padding follow
    the data of a file; a header of type 'e' ends the archive. *)
From Verif Require Import Base Base_proofs Source Seek Decomp CodecSpec Drive ExCodec Copier Sink Zip SinkSpec ZipSpec ExSink Tar TarSpec.

Inductive etst := EtPad (n : nat) | EtHdr | EtGot (d : bytes).
Definition et_digit (b : byte) : nat := (nat_of_ascii b - 48)%nat.
Definition et_hdr (d : bytes) : tstep etst :=
  match d with
  | [] => TsFail EEof
  | [t; _; n; _; s; _] =>
      if beqb t "d"%char then TsHdr (MkTh [n] 0 493 TfDir [] 0 0)
      else if beqb t "l"%char then TsHdr (MkTh [n] 0 511 TfSymlink [s] 0 0)
      else if beqb t "f"%char then TsHdr (MkTh [n] (Z.of_nat (et_digit s)) 420 TfReg [] (et_digit s) 2)
      else if beqb t "x"%char then TsHdr (MkTh [n] 0 0 TfOther [] (et_digit s) 0)
      else if beqb t "e"%char then TsFail EEof
      else TsFail ECorrupt
  | _ => TsFail EUnexpectedEof
  end.
Definition et_fmt : tfmt := {|
  tf_st := etst; tf_init := EtPad;
  tf_step := fun s => match s with
    | EtPad n => TsNeed n (fun _ => EtHdr)
    | EtHdr => TsNeed 6 EtGot
    | EtGot d => et_hdr d
    end;
  tf_eager := false |}.

(** A directory, something ignored, two files, a symlink; compressed (ExCodec.v). *)
Definition et_pack (s : String.string) (fin : String.string) : bytes := s2b "H" ++ flat_map (fun b => ["B"%char; b]) (s2b s) ++ s2b fin.
Definition et_in : bytes := et_pack "dd0xx2qfb6abcpfc4hipllbeee" "E".
Definition et_D : bytes := s2b "dddd00xxxx22qqffbb66aabbccppffcc44hhiippllllbbeeeeee".
Definition et_k : stk := KDec (ex_codec false false) gzip_cfg 300 KSeek.
Definition et_m0 := MkTm (MkTh (s2b "d") 0 493 TfDir [] 0 0) 6 [].
Definition et_m1 := MkTm (MkTh (s2b "x") 0 0 TfOther [] 2 0) 12 (s2b "qq").
Definition et_m2 := MkTm (MkTh (s2b "b") 6 420 TfReg [] 6 2) 20 (s2b "aabbcc").
Definition et_m3 := MkTm (MkTh (s2b "c") 4 420 TfReg [] 4 2) 34 (s2b "hhii").
Definition et_m4 := MkTm (MkTh (s2b "l") 0 511 TfSymlink (s2b "b") 0 0) 46 [].
Definition et_ms := [et_m0; et_m1; et_m2; et_m3; et_m4].
Lemma et_len : zlen et_in = 54. Proof. reflexivity. Qed.

Lemma et_den : stk_den false et_in 0 54 et_k et_D EEof (200 + 52) true true false.
Proof.
  unfold et_k.
  refine (DenDec false et_in 0 54 (ex_codec false false) gzip_cfg 300 KSeek et_in EEof 54 false false 200 et_D EEof true
    _ _ _ _ _ _ _ _ _); try reflexivity; try discriminate; try lia.
  - exact (DenSeek false et_in 0 54 ltac:(lia) ltac:(lia) ltac:(unfold two63; lia)).
  - apply ex_saves_ok.
  - right. vm_compute. splits; try discriminate; exact I.
  - intros _. split; [reflexivity|]. vm_compute. splits; try reflexivity; exact I.
Qed.

Lemma et_layout tm : tlayout et_fmt et_D tm 5 0 0 et_ms true.
Proof.
  unfold et_ms.
  apply (TlMem et_fmt et_D tm 5 0 0 (tm_hdr et_m0) 6); [reflexivity|apply Nat.leb_le; reflexivity|].
  apply (TlMem et_fmt et_D tm 5 6 0 (tm_hdr et_m1) 12); [reflexivity|apply Nat.leb_le; reflexivity|].
  apply (TlMem et_fmt et_D tm 5 14 0 (tm_hdr et_m2) 20); [reflexivity|apply Nat.leb_le; reflexivity|].
  apply (TlMem et_fmt et_D tm 5 26 2 (tm_hdr et_m3) 34); [reflexivity|apply Nat.leb_le; reflexivity|].
  apply (TlMem et_fmt et_D tm 5 38 2 (tm_hdr et_m4) 46); [reflexivity|apply Nat.leb_le; reflexivity|].
  apply (TlEnd et_fmt et_D tm 5 46 0 52). reflexivity.
Qed.

Lemma et_archive : tarchive false et_in 0 54 et_k et_D EEof et_fmt 5 et_ms true map_laws.
Proof. split; [do 3 eexists; exact et_den|apply et_layout|]. repeat constructor. Qed.

(** A save consumer that asks for a checkpoint after every chunk and stops at the n-th one. *)
Definition et_saver {CK} : saver CK tstate :=
  MkSaver nat (fun s _ => (s, true)) (fun s c => (pred s, inl (s =? 1)%nat)).

Definition et_rs : rstate := MkRs et_in 0 [] [].
Notation et_resume SK c st n := (tar_resume SK et_fmt (stk_source et_k) et_saver (tsrc 0 54 et_k et_rs) 300 c st n).
(** stopped at the first checkpoint (in a process that could die), then resumed *)
Definition et_first := et_resume (crashing map_sink) None (map_empty, None) 1%nat.
Definition et_ck : option (teck (stk_source et_k)) := hd_error (map fst (to_log _ _ _ et_first)).
Definition et_second := et_resume map_sink et_ck (fst (to_sink _ _ _ et_first)) 0%nat.

Example et_stopped :
  to_res _ _ _ et_first = Err EStop /\
  option_map (fun c => (ec_index c, option_map en_woff (ec_entry c))) et_ck = Some (2, Some 4) /\
  ms_view (fst (to_sink _ _ _ et_first)) (s2b "b") = Some (NFile (s2b "aabb")).
Proof. splits; vm_compute; reflexivity. Qed.
