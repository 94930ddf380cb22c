(** GeneratorsSpec.v -- specification: what the archive writers (external) make
    of what they are given. *)
From Verif Require Import Base Source Seek Decomp CodecSpec Drive SpoilSpec Copier Sink SinkSpec Zip ZipSpec Tar TarSpec Misc Generators.
From Coq Require Import List.

(** arkive/zip: the directory of the archive [A] lists what was written, in that
    order, not encrypted, and the data of a file decodes to what was written. *)
Definition zip_reads (A : bytes) (C : codec) (fuel0 : nat) (pol : bool) (w : zwrite) (m : zmember) : Prop :=
  zf_name (zm_file m) = zw_name w /\ zf_mode (zm_file m) = zw_mode w /\ zf_method (zm_file m) = zw_method w /\
  zencrypted m = false /\ zm_data m = zw_data w /\ zm_err m = EEof /\ zm_ok A C fuel0 pol m.
Definition zip_holds (A : bytes) (C : codec) (fuel0 : nat) (pol : bool) (ws : list zwrite) (ms : list zmember) : Prop :=
  Forall2 (zip_reads A C fuel0 pol) ws ms.

(** arkive/tar: likewise. *)
Definition tar_reads (w : twrite) (m : tmember) : Prop :=
  th_name (tm_hdr m) = tw_name w /\ th_type (tm_hdr m) = tw_type w /\ th_size (tm_hdr m) = tw_size w /\
  th_mode (tm_hdr m) = tw_mode w /\ th_link (tm_hdr m) = tw_link w /\ tm_data m = tw_data w.
Definition tar_holds (F : tfmt) (N : nat) (D : bytes) (ws : list twrite) (ms : list tmember) : Prop :=
  tlayout F D EEof N 0 0 ms true /\ Forall2 tar_reads ws ms.

(** math/rand: Intn(n) and Int63n(n) are at least 0 and less than n. *)
Definition in_range {R} (f : R -> Z -> R * Z) : Prop := forall r n, 0 < n -> 0 <= snd (f r n) < n.

(** The Items of a checker.Sink, made by hand or by MakeTestSink: under each key an item with that path. *)
Definition well_keyed (items : list (bytes * citem)) : Prop :=
  NoDup (map fst items) /\ (forall p it, In (p, it) items -> en_path (ci_entry it) = p /\ forall n, en_kind (ci_entry it) <> EkOther n).
