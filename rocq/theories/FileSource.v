(** FileSource.v -- model of filesource/filesource.go and of seeksource.FromFile.
    Package github.com/itchio/httpkit/eos (local files, http) is not modelled:
    eos.Open either fails or gives a file with fixed contents, whose Read, Seek
    and Stat may fail. *)
From Verif Require Import Base Source Seek.

(** an opened eos.File: contents, how its reads and seeks go (see rstate), and
    what Stat().Size() is (None: Stat fails) *)
Record hfile := MkHf { hf_data : bytes; hf_reads : list rsev; hf_seeks : list bool; hf_stat : option Z }.
(** the host: what the n-th eos.Open does with a name; how many there were; which
    files (numbered by eos.Open calls) are open; what closing each returns *)
Record host := MkHost { ho_files : nat -> bytes -> hfile + gerr; ho_opens : nat; ho_open : nat -> bool; ho_closing : nat -> option gerr }.

(** eos.Open *)
Definition eos_open (h : host) (name : bytes) : host * (nat * hfile + gerr) :=
  match ho_files h (ho_opens h) name with
  | inl f => (MkHost (ho_files h) (S (ho_opens h)) (fun n => Nat.eqb n (ho_opens h) || ho_open h n) (ho_closing h), inl (ho_opens h, f))
  | inr e => (MkHost (ho_files h) (S (ho_opens h)) (ho_open h) (ho_closing h), inr e)
  end.
(** eos.File.Close: the second time, os.ErrClosed *)
Definition eos_close (h : host) (n : nat) : host * option gerr :=
  if ho_open h n
  then (MkHost (ho_files h) (ho_opens h) (fun m => if Nat.eqb m n then false else ho_open h m) (ho_closing h), ho_closing h n)
  else (h, Some EClosed).

(** seeksource.go:29-40 FromFile *)
Definition seek_from_file (f : hfile) : sstate :=
  seek_new (MkRs (hf_data f) 0 (hf_reads f) (hf_seeks f)) (match hf_stat f with Some n => n | None => 0 end).

(** filesource.go:38-42 fileSource: the embedded SeekSource, and the file *)
Record fsrc := MkFsrc { fs_src : sstate; fs_f : nat }.

(** filesource.go:10-22 OpenPaused *)
Definition open_paused (h : host) (name : bytes) : host * (fsrc + gerr) :=
  let '(h, r) := eos_open h name in
  match r with
  | inr e => (h, inr e)
  | inl (n, f) => (h, inl (MkFsrc (seek_from_file f) n))
  end.

(** filesource.go:24-36 Open *)
Definition file_open (h : host) (name : bytes) : host * (fsrc + gerr) :=
  let '(h, r) := open_paused h name in
  match r with
  | inr e => (h, inr e)
  | inl s =>
      let '(st, r) := seek_resume (fs_src s) None in
      match r with
      | Err e => (h, inr e)
      | _ => (h, inl (MkFsrc st (fs_f s)))
      end
  end.

(** filesource.go:44-46 Close *)
Definition file_close (h : host) (s : fsrc) : host * option gerr := eos_close h (fs_f s).
