(** Props_shallow_tar.v -- property C81 for the tar extractor. *)
From Verif Require Import Base Base_proofs Source Seek Decomp Drive Copier Sink Zip SinkSpec ZipSpec Tar TarSpec ExCodec ExSink ExTar Props_tar Props_kept_tar Props_used.
Open Scope Z_scope.

Section TarShallow.
  Context (SK : sink) (F : tfmt) (S : source) (SV : saver (s_ck S) tstate).

  (** tarextractor.go:46-248: the TarExtractorState object that a call of Resume works with, as
      it leaves it, if it gets as far as working with one (same steps as Tar.tar_resume). *)
  Definition tar_resume_state (src : s_st S) (fuel : nat) (c : option (teck S)) (st : k_st SK) (v : sv_st SV) : option tstate :=
    let run src s ck ts :=
      Some (t_state SK S SV (fst (tar_loop SK F S SV fuel fuel (s_setssc S src) s (ec_index ck) (MkTx SK S SV st ck ts v false None [] [])))) in
    match tar_point S c with
    | Some (ck, ts, s) =>
        match s_resume S src (ec_src ck) with
        | (src1, Ok offset) =>
            let '(src2, _, r2) :=
              if offset <? sr_off s then discard_by_read S drop_cb fuel src1 tt (sr_off s - offset)
              else (src1, tt, Ok tt) in
            match r2 with Ok _ => run src2 s ck ts | _ => Some ts end
        | _ => Some ts
        end
    | None =>
        match s_resume S src None with
        | (src1, Ok _) => run src1 (MkSr 0 0 0) (MkEck None 0 None (Some 0%Q) None) (MkTs (Some []) None)
        | _ => None
        end
    end.

  (** What a copy of the checkpoint [c] by assignment has become when Resume has returned:
      Entry and Data are pointers (extractor.go:11-17) that it shares with the
      extractor. Data is the state ([fin]; tarextractor.go:132). The Entry object that [c]
      was saved with is the next one that the extractor put into the result
      (:228), or, if it did not finish it, the one it still has ([obj]). *)
  Definition tar_shallow (fin : tstate) (obj : option (teck S)) (c : teck S) : teck S :=
    let n := match ec_data c with Some (MkTs (Some l) _) => length l | _ => 0%nat end in
    let e := match ts_result fin with
             | Some l => match nth_error l n with
                         | Some e => Some e
                         | None => match obj with Some o => ec_entry o | None => None end
                         end
             | None => ec_entry c
             end in
    MkEck (ec_src c) (ec_index c) e (ec_prog c) (Some fin).
End TarShallow.

(** C81 is false of the tar extractor, in the plainest case. A tar of one file, not
    compressed (Props_used.v): the save consumer is given a checkpoint at byte 2 of 6, copies
    it and stops. The bytes that the source has just read are still written after Save has
    returned, so the copy says 6, with a tar position of 2; and the entry is
    listed in the result already. Resuming from the copy ends without error, with a wrong
    file, and lists the entry twice. *)
Notation US := (stk_source KSeek).
Definition ush_first := tar_resume map_sink et_fmt US uu_saver uu_src 100 None map_empty [].
Definition ush_state := tar_resume_state map_sink et_fmt US uu_saver uu_src 100 None map_empty [].
Definition ush_copy : option (teck US) := match to_log _ _ _ ush_first, ush_state with
  | [(c, _)], Some fin => Some (tar_shallow US fin (to_obj _ _ _ ush_first) c)
  | _, _ => None
  end.
Definition go_on : saver unit tstate := MkSaver unit (fun s _ => (s, false)) (fun s c => (s, inl false)).
Definition ush_again := tar_resume map_sink et_fmt US go_on uu_src 100 ush_copy (to_sink _ _ _ ush_first) tt.
Lemma ush_first_is : to_res _ _ _ ush_first = Err EStop. Proof. vm_compute. reflexivity. Qed.
Lemma ush_log : map (fun cs => (option_map en_woff (ec_entry (fst cs)), match ec_data (fst cs) with Some (MkTs _ (Some s)) => Some (sr_off s) | _ => None end))
  (to_log _ _ _ ush_first) = [(Some 2, Some 8)].
Proof. vm_compute. reflexivity. Qed.
Lemma ush_copy_is : option_map (fun c => (option_map en_woff (ec_entry c), match ec_data c with Some (MkTs _ (Some s)) => Some (sr_off s) | _ => None end)) ush_copy
  = Some (Some 6, Some 8).
Proof. vm_compute. reflexivity. Qed.
Lemma ush_again_ok : exists l, to_res _ _ _ ush_again = Ok l. Proof. apply is_ok. vm_compute. reflexivity. Qed.
Lemma ush_again_list : match to_res _ _ _ ush_again with Ok l => map en_path l | _ => [] end = [s2b "b"; s2b "b"]. Proof. vm_compute. reflexivity. Qed.
Lemma ush_again_view : ms_view (to_sink _ _ _ ush_again) (s2b "b") = Some (NFile (s2b "aabbccbbcc")). Proof. vm_compute. reflexivity. Qed.
Lemma ush_bad (s : mstate) : ms_view s (s2b "b") = Some (NFile (s2b "aabbccbbcc")) -> ~ extracted map_laws (titems [uu_m]) (ms_view map_empty) s.
Proof.
  intros H2 (Hx & _). specialize (Hx 0%nat (MkEntry (s2b "b") EkFile 420 0 6 0 []) (NFile (s2b "aabbcc")) (s2b "b") eq_refl eq_refl).
  assert (Hl : is_last map_laws (titems [uu_m]) 0 (s2b "b")).
  { intros j it Hj Hn. destruct j as [|j]; [lia|]. destruct j; discriminate. }
  specialize (Hx Hl). change (kl_view map_laws) with ms_view in Hx. rewrite H2 in Hx. discriminate.
Qed.
Theorem C81_tar_shallow_refuted :
  tarchive false uu_in 0 20 KSeek uu_in EEof et_fmt 5 [uu_m] true map_laws /\
  to_res _ _ _ ush_first = Err EStop /\
  map (fun cs => (option_map en_woff (ec_entry (fst cs)), match ec_data (fst cs) with Some (MkTs _ (Some s)) => Some (sr_off s) | _ => None end))
    (to_log _ _ _ ush_first) = [(Some 2, Some 8)] /\
  option_map (fun c => (option_map en_woff (ec_entry c), match ec_data c with Some (MkTs _ (Some s)) => Some (sr_off s) | _ => None end)) ush_copy
    = Some (Some 6, Some 8) /\
  (exists l, to_res _ _ _ ush_again = Ok l) /\
  match to_res _ _ _ ush_again with Ok l => map en_path l | _ => [] end = [s2b "b"; s2b "b"] /\
  ~ extracted map_laws (titems [uu_m]) (ms_view map_empty) (to_sink _ _ _ ush_again).
Proof.
  split; [exact uu_archive|]. split; [exact ush_first_is|]. split; [exact ush_log|]. split; [exact ush_copy_is|].
  split; [exact ush_again_ok|]. split; [exact ush_again_list|]. apply ush_bad. exact ush_again_view.
Qed.
