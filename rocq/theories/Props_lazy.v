(** Props_lazy.v -- why the exactness theorems about resumed extractions
    (C35, C45) ask the codec not to be [cd_eager_save]: with a codec that
    takes its checkpoint after the data of the same Read, the model's zip
    extractor saves the write offset from before that data, together with a
    source checkpoint from after it. Resuming succeeds and the bytes in
    between are missing from the file. (Nothing is wrong with the sources
    themselves in that case: C06 covers them.) *)
From Verif Require Import Base Base_proofs Source Seek Decomp CodecSpec Drive ExCodec Copier Sink Zip SinkSpec ZipSpec ExSink ExZip.

Definition lz_codec := ex_codec false true.
Definition lz_run n c st := zip_resume map_sink lz_codec exF ex_saver (zfiles ex_ms) ex_io 50 c st (n, []).
Definition lz_first := lz_run 1%nat None map_empty.
Definition lz_ck := hd_error (map fst (zo_log _ _ _ _ lz_first)).
Definition lz_second := lz_run 0%nat lz_ck (zo_sink _ _ _ _ lz_first).

(** The archive's entry "b" is "aabbcc"; the run stopped at its first checkpoint
    and resumed from it reports success, and leaves "aacc". *)
Theorem C35_needs_lazy_saves :
  zo_res _ _ _ _ lz_first = Err EStop /\
  option_map (fun c => (ec_index c, option_map en_woff (ec_entry c), option_map ck_off (ec_src c))) lz_ck
    = Some (2, Some 2, Some 4) /\
  zo_res _ _ _ _ lz_second = Ok (zip_entries (zfiles ex_ms)) /\
  zm_data ex_m2 = s2b "aabbcc" /\
  ms_view (zo_sink _ _ _ _ lz_second) (s2b "b") = Some (NFile (s2b "aacc")).
Proof. splits; vm_compute; reflexivity. Qed.
