(** Compress.v -- model of checker/compressors.go. The compressors are other packages' (kompress,
    go-brotli, the bzip2 program): any behaviour, constrained in Props_compress.v. *)
From Verif Require Import Base Source Seek Decomp Drive.

(** A package that offers a compressing io.WriteCloser over a bytes.Buffer. Each call
    returns what it has appended to the buffer. (A bytes.Buffer takes whatever it is
    given.) The int that Write returns is ignored by all four functions. *)
Record wcomp := MkWcomp {
  wc_st : Type;
  wc_new : Z -> (wc_st * bytes) + gerr;                       (* NewWriter(buf, level) *)
  wc_write : wc_st -> bytes -> wc_st * bytes * option gerr;   (* Write *)
  wc_close : wc_st -> bytes * option gerr                     (* Close *)
}.

(** The statements that the functions share: Write, Close, compressedBuf.Bytes(). *)
Definition write_close (W : wcomp) (w : wc_st W) (buf input : bytes) : res bytes :=
  let '(w1, b1, e1) := wc_write W w input in
  match e1 with
  | Some e => Err (with_stack e)
  | None =>
      let '(b2, e2) := wc_close W w1 in
      match e2 with
      | Some e => Err (with_stack e)
      | None => Ok (buf ++ b1 ++ b2)
      end
  end.

(** checker/compressors.go:14-32 and 34-52: a writer of level 9, Write, Close, each error
    returned with a stack and no data. *)
Definition writer_compress (W : wcomp) (level : Z) (input : bytes) : res bytes :=
  match wc_new W level with
  | inr e => Err (with_stack e)
  | inl (w, buf) => write_close W w buf input
  end.
Definition gzip_compress (W : wcomp) (input : bytes) : res bytes := writer_compress W 9 input.
Definition flate_compress (W : wcomp) (input : bytes) : res bytes := writer_compress W 9 input.

(** checker/compressors.go:68-86: enc.NewBrotliWriter returns no error. *)
Record bcomp := MkBcomp { bc_w : wcomp; bc_new : Z -> wc_st bc_w * bytes }.
Definition brotli_compress (B : bcomp) (input : bytes) (level : Z) : res bytes :=
  let '(w, buf) := bc_new B level in write_close (bc_w B) w buf input.

(** checker/compressors.go:54-66: a command that is given the input on stdin; what it
    writes to stdout, and the error of cmd.Run. *)
Definition command := bytes -> bytes * option gerr.
Definition bzip2_compress (cmd : command) (input : bytes) : res bytes :=
  let '(out, e) := cmd input in
  match e with
  | Some e => Err (with_stack e)
  | None => Ok out
  end.
