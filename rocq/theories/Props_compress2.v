(** Props_compress2.v -- property C85, continued: the compressed archives of tarextractor_test.go. *)
From Verif Require Import Base Base_proofs Source Contract Seek Decomp CodecSpec Drive SpoilSpec Stack_proofs Copier Sink SinkSpec Zip ZipSpec
  Tar TarSpec Again StopSpec ExCodec ExSink ExZip ExTar Misc Props_misc Props_checker CheckerLaws Props_again Props_checker2 Generators GeneratorsSpec Props_generators
  Compress Props_compress.
From Coq Require Import List Lia Permutation.
Open Scope Z_scope.

(** C85. A tar archive made by MakeTar from any checker.Sink with well-formed keys, compressed by one of the four functions, passes
    the test of the tar extractor over the matching source: extracted with any
    interruptions, as often as it takes, it ends without error and Validate finds nothing wrong; it may only fail
    if there are not enough attempts. *)
Theorem C85_compressed_tar_passes f C D out F N items order ms :
  tc_inverse f C -> good_codec C -> cd_eager_save C = false -> tc_run f D = Ok out -> zlen out < two63 ->
  well_keyed items -> Permutation items order -> tar_holds F N D (make_tar order) ms ->
  exists B1, forall fuel1, (B1 < fuel1)%nat ->
    let k := KDec C (tc_cfg f) fuel1 KSeek in
    exists B, forall (SV : saver (s_ck (stk_source k)) tstate) rs fuel left v,
      (forall j, rs_ok false out (rs j)) -> (forall j, rs_good (rs j)) -> saver_noerr SV -> (B < fuel)%nat ->
      match tar_again (checker_sink items) F (stk_source k) SV (fun j => tsrc 0 (zlen out) k (rs j)) fuel left 0 None cs_new v with
      | None => (left < length D)%nat /\ ~ saver_goes_on SV
      | Some (n, o) => (n <= length D)%nat /\ (exists l, to_res _ _ _ o = Ok l) /\ cs_validate items (to_sink _ _ _ o) = None
      end.
Proof.
  intros Hi HC Hes Hrun Hlen Hk Hp Hh. destruct (tc_den f C D out Hi HC Hrun Hlen) as (B1 & HB1). exists B1. intros fuel1 Hf k.
  destruct (HB1 fuel1 Hf false) as (b & Hden). rewrite Hes in Hden.
  destruct (C80_tar_passes F N D items order ms false out 0 (zlen out) k Hk Hp Hh) as [_ H]; [|exact H].
  exists b, false, (negb (cd_eager C)). exact Hden.
Qed.

(** Not vacuous: the archive of Props_generators.v, with a byte after its end to make the length even, through the compressor of
    Props_compress.v. *)
Definition ecz_D : bytes := eg_D ++ s2b ".".
Lemma ecz_tar : tar_holds eg_fmt 5 ecz_D (make_tar eg_order) eg_tms.
Proof.
  split.
  - unfold eg_tms.
    apply (TlMem eg_fmt ecz_D EEof 5 0 0 (MkTh (s2b "file-2") 0 420 TfReg [] 0 0) 1); [vm_compute; reflexivity|apply Nat.leb_le; vm_compute; reflexivity|].
    apply (TlMem eg_fmt ecz_D EEof 5 1 0 (MkTh (s2b "dir-1") 0 493 TfDir [] 0 0) 2); [vm_compute; reflexivity|apply Nat.leb_le; vm_compute; reflexivity|].
    apply (TlMem eg_fmt ecz_D EEof 5 2 0 (MkTh (s2b "file-3") 3 420 TfReg [] 3 1) 3); [vm_compute; reflexivity|apply Nat.leb_le; vm_compute; reflexivity|].
    apply (TlMem eg_fmt ecz_D EEof 5 6 1 (MkTh (s2b "symlink-0") 0 493 TfDir [] 0 0) 8); [vm_compute; reflexivity|apply Nat.leb_le; vm_compute; reflexivity|].
    apply (TlEnd eg_fmt ecz_D EEof 5 8 0 9). vm_compute. reflexivity.
  - exact (proj2 eg_tar).
Qed.
Example C85_tar_example : tc_inverse (TcGzip exw) (ex_codec false false) /\ good_codec (ex_codec false false) /\
  (exists out, tc_run (TcGzip exw) ecz_D = Ok out /\ zlen out < two63) /\
  well_keyed eg_items /\ Permutation eg_items eg_order /\ tar_holds eg_fmt 5 ecz_D (make_tar eg_order) eg_tms.
Proof.
  split; [exact exw_inverse|]. split; [exact exw_good|]. split; [|split; [exact eg_keyed|split; [exact eg_perm|exact ecz_tar]]].
  eexists. split; [vm_compute; reflexivity|vm_compute; reflexivity].
Qed.
