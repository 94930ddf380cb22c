(** Names.v -- model of the String methods that are used to tell things apart in logs.
    Entry.String (sink.go:64-66) and ExtractorResult.Stats are not here: they use
    united.FormatBytes, which is not savior's code (the counts are in Misc.v). *)
From Verif Require Import Base Source Sink Zip Tar Features.
From Coq Require Import String Ascii.
Open Scope string_scope.

(** extractor.go:84-95 the constants, as the ints they are *)
Definition rs_int (r : resume_support) : Z := match r with RsNone => 0 | RsEntry => 1 | RsBlock => 2 end.
(** extractor.go:97-108 ResumeSupport.String, of any int *)
Definition rs_string (n : Z) : string :=
  if (n =? 0)%Z then "none" else if (n =? 1)%Z then "entry" else if (n =? 2)%Z then "block" else "unknown resume support".
(** sink.go:22-33 EntryKind.String *)
Definition ek_string (k : ekind) : string :=
  match k with EkDir => "dir" | EkSymlink => "symlink" | EkFile => "file" | EkOther _ => "<unknown entry kind>" end.
(** extractor.go:66-81 ExtractorFeatures.String *)
Definition ef_string (ef : efeatures) : string :=
  ef_name ef ++ ": resume=" ++ rs_string (rs_int (ef_support ef)) ++
  (if ef_prealloc ef then " +preallocate" else "") ++
  (if ef_random ef then " +randomaccess" else "") ++
  match ef_source ef with
  | Some sf => " (via source " ++ sf_name sf ++ ": resume=" ++ rs_string (rs_int (sf_support sf)) ++ ")"
  | None => ""
  end.
