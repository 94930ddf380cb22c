(** Counting.v -- model of countingsource/countingsource.go. It wraps any
    SeekSource, given as a [source] together with its Tell, Size and Section
    methods (source.go:70-82). The calls of the CountingCallback are recorded,
    most recent first, in [cs_log]. *)
From Verif Require Import Base Source Seek.

(** source.go:70-82 SeekSource *)
Record seeksource := MkSS {
  k_src : source;
  k_tell : s_st k_src -> Z;
  k_size : s_st k_src -> Z;
  k_section : s_st k_src -> Z -> Z -> res (s_st k_src) }.

(** countingsource.go:10 *)
Definition read_byte_threshold : Z := 131072.

Section Counting.
  Context (X : seeksource).
  Let S := k_src X.

  (** countingsource.go:12-16. [cs_base] is the sum of the section starts added
      by the nested closures of Section (83-86); the original callback is
      called with cs_base + offset. *)
  Record cstate := MkCount { cs_src : s_st S; cs_n : Z; cs_base : Z; cs_log : list Z }.

  (** countingsource.go:20-25 *)
  Definition counting_new (s : s_st S) : cstate := MkCount s 0 0 [].

  Definition counting_map (f : s_st S -> s_st S) (c : cstate) : cstate :=
    MkCount (f (cs_src c)) (cs_n c) (cs_base c) (cs_log c).

  (** countingsource.go:31-33 *)
  Definition counting_resume (c : cstate) (ck : option (sckpt (s_ck S))) : cstate * res Z :=
    let '(s', r) := s_resume S (cs_src c) ck in
    (MkCount s' (cs_n c) (cs_base c) (cs_log c), r).

  (** countingsource.go:37-41 and 48-52: add [n] to numReadBytes, call back and
      reset beyond the threshold *)
  Definition counting_bump (s' : s_st S) (n : Z) (c : cstate) : cstate :=
    let total := cs_n c + n in
    if total >? read_byte_threshold
    then MkCount s' 0 (cs_base c) ((cs_base c + k_tell X s') :: cs_log c)
    else MkCount s' total (cs_base c) (cs_log c).

  (** countingsource.go:35-43 Read *)
  Definition counting_read {K} (cb : callback (s_ck S) K) (c : cstate) (k : K) (n : nat) : cstate * K * rres :=
    match s_read S cb (cs_src c) k n with
    | (s', k', RRet d e) => (counting_bump s' (zlen d) c, k', RRet d e)
    | (s', k', r) => (MkCount s' (cs_n c) (cs_base c) (cs_log c), k', r)
    end.

  (** countingsource.go:45-55 ReadByte *)
  Definition counting_readbyte {K} (cb : callback (s_ck S) K) (c : cstate) (k : K) : cstate * K * bres :=
    match s_readbyte S cb (cs_src c) k with
    | (s', k', BRet b None) => (counting_bump s' 1 c, k', BRet b None)
    | (s', k', r) => (MkCount s' (cs_n c) (cs_base c) (cs_log c), k', r)
    end.

  (** countingsource.go:77-89 Section; the new source shares the callback, so it
      shares the log. *)
  Definition counting_section (c : cstate) (start size : Z) : res cstate :=
    match k_section X (cs_src c) start size with
    | Ok s' => Ok (MkCount s' 0 (cs_base c + start) (cs_log c))
    | Err e => Err e | Panic => Panic | Hang => Hang
    end.

  (** countingsource.go:57-75 are forwarded *)
  Definition counting_source : source := {|
    s_st := cstate; s_ck := s_ck S;
    s_resume := counting_resume;
    s_setssc := counting_map (s_setssc S);
    s_want := counting_map (s_want S);
    s_progress := fun c => s_progress S (cs_src c);
    s_read := @counting_read;
    s_readbyte := @counting_readbyte |}.

  Definition counting_seeksource : seeksource := {|
    k_src := counting_source;
    k_tell := fun c => k_tell X (cs_src c);
    k_size := fun c => k_size X (cs_src c);
    k_section := counting_section |}.
End Counting.

(** seeksource/seeksource.go:27 seekSource implements SeekSource *)
Definition seek_seeksource : seeksource := MkSS seek_source seek_tell seek_size seek_section.
