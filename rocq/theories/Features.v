(** Features.v -- model of the Features methods. *)
From Verif Require Import Base Source Seek Decomp Drive Zip Tar.
From Coq Require Import String.

(** source.go:63-66 SourceFeatures *)
Record sfeatures := MkSfeat { sf_name : string; sf_support : resume_support }.
(** extractor.go:53-64 ExtractorFeatures *)
Record efeatures := MkEfeat { ef_name : string; ef_support : resume_support; ef_prealloc : bool; ef_random : bool; ef_source : option sfeatures }.

(** seeksource.go:55-60, flatesource.go:40-45, gzipsource.go:44-49, bzip2source.go:41-46,
    brotlisource.go:39-44. The name of a decompressor is not modelled ("codec"); countingsource.go:27-29
    passes on what its source says. *)
Definition stk_features (k : stk) : sfeatures :=
  match k with
  | KSeek => MkSfeat "seek" RsBlock
  | KDec _ _ _ _ => MkSfeat "codec" RsBlock
  end.
Definition counting_features (sf : sfeatures) : sfeatures := sf.

(** tarextractor.go:254-274 *)
Definition tar_features (sf : sfeatures) : efeatures := MkEfeat "tar" (tar_support (sf_support sf)) false false (Some sf).
(** zipextractor.go:349-358 *)
Definition zip_features (sup : resume_support) : efeatures := MkEfeat "zip" sup true true None.
