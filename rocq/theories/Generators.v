(** Generators.v -- model of the test data the checker package makes:
    checker/maketestsink.go, checker/makezip.go and checker/maketar.go. *)
From Verif Require Import Base Source Sink Zip Tar Misc.
From Coq Require Import Ascii Decimal.

(** fmt.Sprintf("%d", n) *)
Fixpoint uint_bytes (u : uint) : bytes :=
  match u with
  | Nil => []
  | D0 u => "0"%char :: uint_bytes u | D1 u => "1"%char :: uint_bytes u | D2 u => "2"%char :: uint_bytes u
  | D3 u => "3"%char :: uint_bytes u | D4 u => "4"%char :: uint_bytes u | D5 u => "5"%char :: uint_bytes u
  | D6 u => "6"%char :: uint_bytes u | D7 u => "7"%char :: uint_bytes u | D8 u => "8"%char :: uint_bytes u
  | D9 u => "9"%char :: uint_bytes u
  end.
Definition dec (n : nat) : bytes := uint_bytes (Nat.to_uint n).

(** sink.Items[name] = item, a Go map as a list without order *)
Definition map_put (items : list (bytes * citem)) (k : bytes) (v : citem) : list (bytes * citem) :=
  filter (fun x => negb (bytes_eqb (fst x) k)) items ++ [(k, v)].

(** math/rand: any state and any Intn and Int63n ([R] here, [R0] in semirandom,
    whose generator is made anew from the same seed in each call). [fuel]: how
    long the loop of semirandom.Bytes may run. *)
Section TestSink.
  Context (R : Type) (intn int63n : R -> Z -> R * Z).
  Context (R0 : Type) (intn0 : R0 -> Z -> R0 * Z) (seed : R0) (fuel : nat).

  (** maketestsink.go:18-51, one iteration per unit of [n]; the remaining fields
      of an Entry are zero *)
  Fixpoint make_items (n i : nat) (r : R) (items : list (bytes * citem)) : res (list (bytes * citem)) :=
    match n with
    | O => Ok items
    | S n' =>
        let '(r1, a) := intn r 100 in
        if a <? 10 then
          (* :19-28, a "symlink" *)
          let name := s2b "symlink-" ++ dec i in
          make_items n' (S i) r1 (map_put items name
            (MkCitem (MkEntry name EkDir 0 0 0 0 (s2b "target-" ++ dec (i * 2))) []))
        else
          let '(r2, b) := intn r1 100 in
          if b <? 20 then
            (* :29-37 *)
            let name := s2b "dir-" ++ dec i in
            make_items n' (S i) r2 (map_put items name (MkCitem (MkEntry name EkDir 0 0 0 0 []) []))
          else
            (* :38-50 *)
            let '(r3, size) := int63n r2 (4 * 1024 * 1024) in
            let name := s2b "file-" ++ dec i in
            match sr_bytes R0 intn0 fuel seed size with
            | Ok d => make_items n' (S i) r3 (map_put items name (MkCitem (MkEntry name EkFile 0 0 size 0 []) d))
            | Err e => Err e | Panic => Panic | Hang => Hang
            end
    end.
  (** maketestsink.go:15-53 MakeTestSinkAdvanced (a negative argument is as 0) *)
  Definition make_test_sink (n : nat) (r : R) : res (list (bytes * citem)) := make_items n 0 r [].
End TestSink.

(** What is given to the zip writer: a file header and, for files and symlinks, what is written. *)
Record zwrite := MkZw { zw_name : bytes; zw_mode : Z; zw_method : Z; zw_data : bytes }.

(** makezip.go:22-55 the loop, over the Items in the order Go's range yields
    them; [comp]: shouldCompress. os.ModeDir|0755, 0644, os.ModeSymlink|0644. The log line is not modelled. *)
Fixpoint make_zip (order : list (bytes * citem)) (comp : bool) : list zwrite :=
  match order with
  | [] => []
  | (_, it) :: rest =>
      let name := en_path (ci_entry it) in
      match en_kind (ci_entry it) with
      | EkDir => MkZw name (2 ^ 31 + 493) zip_store [] :: make_zip rest comp
      | EkFile => MkZw name 420 (if comp then zip_deflate else zip_store) (ci_data it) :: make_zip rest (negb comp)
      | EkSymlink => MkZw name (2 ^ 27 + 420) zip_store (en_link (ci_entry it)) :: make_zip rest comp
      | EkOther _ => make_zip rest comp
      end
  end.

(** What is given to the tar writer: the header (name, type, size, mode, link name), and the data. *)
Record twrite := MkTw { tw_name : bytes; tw_type : tflag; tw_size : Z; tw_mode : Z; tw_link : bytes; tw_data : bytes }.

(** maketar.go:16-42 *)
Fixpoint make_tar (order : list (bytes * citem)) : list twrite :=
  match order with
  | [] => []
  | (_, it) :: rest =>
      let name := en_path (ci_entry it) in
      match en_kind (ci_entry it) with
      | EkDir => MkTw name TfDir 0 493 [] [] :: make_tar rest
      | EkFile => MkTw name TfReg (zlen (ci_data it)) 420 [] (ci_data it) :: make_tar rest
      | EkSymlink => MkTw name TfSymlink 0 420 (en_link (ci_entry it)) [] :: make_tar rest
      | EkOther _ => make_tar rest
      end
  end.
