(** Again.v -- model of the loop in checker/extractortester.go: extract, and
    whenever the save consumer stops the extraction, resume it with a new
    extractor from the checkpoint it was given. *)
From Verif Require Import Base Source Seek Decomp Drive Copier Sink Zip Tar.

(** The checkpoint the save consumer kept: the last one passed to Save in this
    run, otherwise the one it already had (extractortester.go:30-36). The copy
    through encoding/gob (extractortester.go:110-) is the identity here. *)
Definition kept {CK DT ST} (c : option (eckpt CK DT)) (log : list (eckpt CK DT * ST)) : option (eckpt CK DT) :=
  match rev log with (c', _) :: _ => Some c' | [] => c end.

(** extractortester.go:72-105 RunExtractorText over zip extractors. [left]: how
    many more times it may be resumed (maxResumes - numResumes); [k]: numResumes;
    [io k]: how the archive reader behaves during run k. The sink and the save consumer are
    the same throughout, the extractor is new in each run. Returns numResumes and the outcome of the last run;
    None: too many resumes. *)
Fixpoint zip_again (SK : sink) (C : codec) (fuel0 : nat) (SV : saver (zck C fuel0) unit) (files : list zfile)
    (io : nat -> nat -> zio) (fuel left k : nat) (c : option (zeck C fuel0)) (s : k_st SK) (v : sv_st SV)
    : option (nat * zout SK C fuel0 SV) :=
  let out := zip_resume SK C fuel0 SV files (io k) fuel c s v in
  match zo_res _ _ _ _ out with
  | Err EStop =>
      match left with
      | O => None
      | S left' => zip_again SK C fuel0 SV files io fuel left' (S k) (kept c (zo_log _ _ _ _ out)) (zo_sink _ _ _ _ out) (zo_sv _ _ _ _ out)
      end
  | _ => Some (k, out)
  end.

(** The same over tar extractors; [src k]: the new source of run k. *)
Fixpoint tar_again (SK : sink) (F : tfmt) (S : source) (SV : saver (s_ck S) tstate)
    (src : nat -> s_st S) (fuel left k : nat) (c : option (teck S)) (s : k_st SK) (v : sv_st SV)
    : option (nat * tout SK S SV) :=
  let out := tar_resume SK F S SV (src k) fuel c s v in
  match to_res _ _ _ out with
  | Err EStop =>
      match left with
      | O => None
      | Datatypes.S left' => tar_again SK F S SV src fuel left' (Datatypes.S k) (kept c (to_log _ _ _ out)) (to_sink _ _ _ out) (to_sv _ _ _ out)
      end
  | _ => Some (k, out)
  end.
