(** Reenter.v -- model of Read for a save consumer that calls methods of the
    source from within Save, as checker/sourcetester.go does, and of that tester. *)
From Verif Require Import Base Source Seek Decomp CodecSpec Drive Copier Sink Misc.

(** A save consumer that has access to the source: Save may change its state. *)
Definition reback (S : source) (K : Type) := sckpt (s_ck S) -> s_st S -> K -> s_st S * K * cres.

(** seeksource.go:165-176 handleSave and 125-146 Read as in Seek.v, but with
    such a consumer. wantSave is reset before Save is called; the limit on the number of bytes is
    computed before; the buffer and offset that are used are those after Save. *)
Definition seek_handle_save_re {K} (cb : reback seek_source K) (s : sstate) (k : K) : sstate * K * cres :=
  if ss_want s then
    let s' := MkSeek (ss_rs s) (ss_br s) (ss_ssc s) false (ss_start s) (ss_off s) (ss_size s) in
    if ss_ssc s then
      let '(s2, k', r) := cb (MkCk (ss_off s) None) s' k in
      (s2, k', match r with CPanic => CPanic | _ => COk end)
    else (s', k, COk)
  else (s, k, COk).
Definition seek_read_re {K} (cb : reback seek_source K) (s : sstate) (k : K) (n : nat) : sstate * K * rres :=
  match ss_br s with
  | None => (s, k, RRet [] (Some EUninit))
  | Some _ =>
      if (n =? 0)%nat then (s, k, RRet [] None)
      else
        let remaining := ss_size s - ss_off s in
        if remaining =? 0 then (s, k, RRet [] (Some EEof))
        else if (Z.of_nat n >? remaining) && (remaining <? 0) then (s, k, RPanic)
        else
          let n' := if Z.of_nat n >? remaining then Z.to_nat remaining else n in
          let '(s1, k1, r) := seek_handle_save_re cb s k in
          match r, ss_br s1 with
          | CPanic, _ => (s1, k1, RPanic)
          | _, None => (s1, k1, RPanic)
          | _, Some b =>
              let '(b', rs', d, e) := b_read b (ss_rs s1) n' in
              (MkSeek rs' (Some b') (ss_ssc s1) (ss_want s1) (ss_start s1) (ss_off s1 + zlen d) (ss_size s1), k1, RRet d e)
          end
  end.

(** flatesource.go:118-156 Read (gzip 124-163, bzip2 123-161, brotli 125-163) as
    in Decomp.v: Save is the last thing it does. *)
Definition dcomp_read_re (C : codec) (cfg : dcfg) (I : source) (fuel0 : nat) {K}
    (cb : reback (dcomp_source C cfg I fuel0) K) (s : dstate C I) (k : K) (n : nat) : dstate C I * K * rres :=
  match ds_sr C I s with
  | None => (s, k, RRet [] (Some EUninit))
  | Some sr =>
      let '(i1, sck1, sr1, r) := sr_read C I fuel0 fuel0 (ds_in C I s) (ds_sck C I s) sr n in
      match r with
      | RRet d e =>
          let off1 := ds_off C I s + zlen d in
          let s1 := MkDs C I i1 (Some sr1) off1 (ds_ssc C I s) sck1 (ds_buf C I s) in
          match e with
          | Some EReadyToSave =>
              match sck1 with
              | None => (s1, k, RRet d None)
              | Some c =>
                  if negb (ds_ssc C I s) then (s1, k, RRet d None)
                  else if negb (cd_savable C (sr_d C sr1)) then (s1, k, RRet d (Some (EOther 5)))
                  else
                    let ck := MkCk off1 (Some (MkDck C I off1 (Some c) (sr_roff C sr1) (sr_woff C sr1) (Some (sr_d C sr1)))) in
                    let s2 := MkDs C I i1 (Some sr1) off1 (ds_ssc C I s) (if cf_clear cfg then None else sck1) (ds_buf C I s) in
                    let '(s3, k1, cr) := cb ck s2 k in
                    match cr with
                    | COk => (s3, k1, RRet d None)
                    | CErr e => (s3, k1, RRet d (Some e))
                    | CPanic => (s3, k1, RPanic)
                    end
              end
          | _ => (s1, k, RRet d e)
          end
      | RPanic => (MkDs C I i1 (Some sr1) (ds_off C I s) (ds_ssc C I s) sck1 (ds_buf C I s), k, RPanic)
      | RHang => (MkDs C I i1 (Some sr1) (ds_off C I s) (ds_ssc C I s) sck1 (ds_buf C I s), k, RHang)
      end
  end.

Definition stk_read_re (k : stk) {K} : reback (stk_source k) K -> s_st (stk_source k) -> K -> nat -> s_st (stk_source k) * K * rres :=
  match k with
  | KSeek => seek_read_re
  | KDec C cfg fuel s => dcomp_read_re C cfg (stk_source s) fuel
  end.

(** A consumer that may call Resume with the checkpoint it is given: [before]
    sees the checkpoint and decides to return at once ([Some r]) or to call Resume,
    [after] sees what Resume returned. *)
Definition re_cb (S : source) {K} (before : K -> sckpt (s_ck S) -> K * option cres) (after : K -> res Z -> K * cres) : reback S K :=
  fun c st k =>
    let '(k1, b) := before k c in
    match b with
    | Some r => (st, k1, r)
    | None => let '(st', r) := s_resume S st (Some c) in let '(k2, cr) := after k1 r in (st', k2, cr)
    end.

(** ** checker/sourcetester.go *)
Inductive verdict := TPass | TReadFailed (e : gerr) | TMismatch | TResumeFailed | TSeekFailed | TTooMany | TNoCheckpoint | TPanicked | THung.

Section Tester.
  Context (k : stk) (copybuf bufsz : nat) (thr : Z) (maxResumes : nat).
  Notation S := (stk_source k).

  (** io.Copy(output, source) (sourcetester.go:32; io.Copy's buffer is 32 KiB). No consumer
      is registered yet: the one given here is not called. *)
  Fixpoint st_copy (fuel : nat) (st : s_st S) (w : cwriter) : s_st S * cwriter * option verdict :=
    match fuel with
    | O => (st, w, Some THung)
    | Datatypes.S f =>
        match s_read S rec_cb st [] copybuf with
        | (st1, _, RRet d e) =>
            let '(w1, r) := match d with [] => (w, Ok tt) | _ => let '(w1, _, (_, r)) := cw_write w None d in (w1, r) end in
            match r with
            | Ok _ =>
                match e with
                | None => st_copy f st1 w1
                | Some EEof => (st1, w1, None)
                | Some e => (st1, w1, Some (TReadFailed e))
                end
            | _ => (st1, w1, Some TMismatch)
            end
        | (st1, _, RPanic) => (st1, w, Some TPanicked)
        | (st1, _, RHang) => (st1, w, Some THung)
        end
    end.

  (** What the consumer of sourcetester.go:45-67 works on: output, numResumes,
      totalCheckpoints, and why the test was given up (t.FailNow ends the
      goroutine: nothing is executed after it, like a panic nobody recovers). *)
  Record tacc := MkTacc { tc_out : cwriter; tc_num : nat; tc_total : nat; tc_fail : option verdict }.

  (** sourcetester.go:46-55 (the round trip through gob is the identity) *)
  Definition st_before (a : tacc) (c : sckpt (s_ck S)) : tacc * option cres :=
    let num := Datatypes.S (tc_num a) in
    if (maxResumes <? num)%nat then (MkTacc (tc_out a) num (tc_total a) (Some TTooMany), Some CPanic)
    else (MkTacc (tc_out a) num (Datatypes.S (tc_total a)) (tc_fail a), None).
  (** sourcetester.go:57-64 *)
  Definition st_after (a : tacc) (r : res Z) : tacc * cres :=
    match r with
    | Ok z =>
        match cw_seek (tc_out a) z 0 with
        | (w, Ok _) => (MkTacc w (tc_num a) (tc_total a) (tc_fail a), COk)
        | (w, _) => (MkTacc w (tc_num a) (tc_total a) (Some TSeekFailed), CPanic)
        end
    | _ => (MkTacc (tc_out a) (tc_num a) (tc_total a) (Some TResumeFailed), CPanic)
    end.

  (** sourcetester.go:70-88 and 91 *)
  Fixpoint st_loop (fuel : nat) (st : s_st S) (a : tacc) (counter : Z) : verdict :=
    match fuel with
    | O => THung
    | Datatypes.S f =>
        match stk_read_re k (re_cb S st_before st_after) st a bufsz with
        | (st1, a1, RRet d e) =>
            let c1 := counter + zlen d in
            let '(st2, c2) := if c1 >? thr then (s_want S st1, 0) else (st1, c1) in
            let '(w1, _, (_, r)) := cw_write (tc_out a1) None d in
            let a2 := MkTacc w1 (tc_num a1) (tc_total a1) (tc_fail a1) in
            match r with
            | Ok _ =>
                match e with
                | None => st_loop f st2 a2 c2
                | Some EEof => if (0 <? tc_total a2)%nat then TPass else TNoCheckpoint
                | Some e => TReadFailed e
                end
            | _ => TMismatch
            end
        | (_, a1, RPanic) => match tc_fail a1 with Some v => v | None => TPanicked end
        | (_, _, RHang) => THung
        end
    end.

  (** sourcetester.go:23-92 RunSourceTest *)
  Definition run_source_test (fuel : nat) (st : s_st S) (ref : bytes) : verdict :=
    match s_resume S st None with
    | (st1, Ok _) =>
        match st_copy fuel st1 (cw_new ref) with
        | (_, _, Some v) => v
        | (st2, w, None) =>
            match s_resume S st2 None with
            | (st3, Ok _) =>
                match cw_seek w 0 0 with
                | (w1, Ok _) => st_loop fuel (s_setssc S st3) (MkTacc w1 0 0 None) 0
                | _ => TSeekFailed
                end
            | _ => TResumeFailed
            end
        end
    | _ => TResumeFailed
    end.
End Tester.

(** The constants of the code: io.Copy's 32 KiB, sourcetester.go:43, :69, :25. *)
Definition source_test (k : stk) := run_source_test k (32 * 1024) (16 * 1024) (256 * 1024) 128.
