(** Base.v -- basic vocabulary shared by the whole model.
    Nothing in here models a particular function of savior; it fixes how Go
    values are represented. *)
From Coq Require Export String Ascii List ZArith NArith Lia Bool.
From Coq Require Export ZifyBool ZifyNat ZifyN.
Export ListNotations.
#[global] Open Scope list_scope.
#[global] Open Scope Z_scope.

(** A byte of data. Go's [byte]. *)
Definition byte := ascii.
(** A Go string / []byte is a list of bytes. *)
Definition bytes := list byte.

(** Literals: [s2b "abc"]. *)
Definition s2b (s : string) : bytes := list_ascii_of_string s.
Arguments s2b : simpl never.

Definition beqb (a b : byte) : bool := Ascii.eqb a b.
Fixpoint bytes_eqb (a b : bytes) : bool :=
  match a, b with
  | [], [] => true
  | x :: a', y :: b' => beqb x y && bytes_eqb a' b'
  | _, _ => false
  end.

(** Go errors that savior's code compares against or that users can
    distinguish; everything else is [EOther n] (n identifies the origin). *)
Inductive gerr :=
| EEof                (* io.EOF *)
| EUnexpectedEof      (* io.ErrUnexpectedEOF *)
| EUninit             (* savior.ErrUninitializedSource, source.go:22 *)
| ENegOffset          (* seeksource.go:77 "cannot resume from negative offset" *)
| EReadyToSave        (* flate.ReadyToSaveError, bzip2.ReadyToSaveError, brotli.ReadyToSaveError *)
| EStop               (* savior.ErrStop, copy.go:11 *)
| ETraversal          (* savior.ErrPathTraversal, folder_sink.go:54 *)
| EClosed             (* os.ErrClosed *)
| EEncrypted          (* zip.ErrEncrypted *)
| EInsecure           (* zip.ErrInsecurePath *)
| ECorrupt            (* decompressor: corrupt input *)
| EIO                 (* failure of the OS or of the underlying reader *)
| ENoEnt | ENotDir | EIsDir | EExist | ELoop | EInval
| EOther (n : nat)
| EWrapEof.           (* io.EOF wrapped by errors.WithStack: not == io.EOF any more *)

Definition gerr_eqb (a b : gerr) : bool :=
  match a, b with
  | EEof, EEof | EUnexpectedEof, EUnexpectedEof | EUninit, EUninit
  | ENegOffset, ENegOffset | EReadyToSave, EReadyToSave | EStop, EStop
  | ETraversal, ETraversal | EClosed, EClosed | EEncrypted, EEncrypted
  | EInsecure, EInsecure | ECorrupt, ECorrupt | EIO, EIO
  | ENoEnt, ENoEnt | ENotDir, ENotDir | EIsDir, EIsDir | EExist, EExist
  | ELoop, ELoop | EInval, EInval => true
  | EOther n, EOther m => Nat.eqb n m
  | EWrapEof, EWrapEof => true
  | _, _ => false
  end.

(** errors.WithStack: the code compares with == only against io.EOF (and the
    decompressors' ReadyToSaveError, which are never wrapped), so wrapping is
    only visible for io.EOF. *)
Definition with_stack (e : gerr) : gerr := match e with EEof => EWrapEof | _ => e end.

(** Result of a Go function returning (value, error), which may panic, or
    (for loops run with fuel) may not have finished yet. *)
Inductive res (A : Type) :=
| Ok (a : A)
| Err (e : gerr)
| Panic
| Hang.   (* fuel exhausted: the call has not returned (yet) *)
Arguments Ok {A} a.
Arguments Err {A} e.
Arguments Panic {A}.
Arguments Hang {A}.

(** int64 arithmetic wraps around. *)
Definition two63 : Z := 9223372036854775808.
Definition two64 : Z := 18446744073709551616.
Definition wrap64 (z : Z) : Z := (z + two63) mod two64 - two63.
Definition is_int64 (z : Z) : Prop := - two63 <= z < two63.

(** [slice d o n]: the n bytes of d from offset o. *)
Definition slice {A} (d : list A) (o n : nat) : list A := firstn n (skipn o d).

Definition zlen {A} (l : list A) : Z := Z.of_nat (List.length l).
