(** Misc.v -- model of the smaller pieces: extraction results (extractor.go),
    NopSink (nop_sink.go), the checker package (checker/writer.go,
    checker/sink.go, checker/countersaveconsumer.go) and semirandom. *)
From Verif Require Import Base Source Sink.

(** ** extractor.go *)
(** extractor.go:25-41 the loop of Stats; the final Sprintf and
    united.FormatBytes are not modelled. Go's int is 64 bits wide and a counter
    cannot exceed the length of a slice, so the counters do not wrap. *)
Record stats := MkStats { st_files : Z; st_dirs : Z; st_symlinks : Z; st_total : Z }.
Definition stats_step (s : stats) (e : entry) : stats :=
  let t := wrap64 (st_total s + en_usize e) in
  match en_kind e with
  | EkFile => MkStats (st_files s + 1) (st_dirs s) (st_symlinks s) t
  | EkDir => MkStats (st_files s) (st_dirs s + 1) (st_symlinks s) t
  | EkSymlink => MkStats (st_files s) (st_dirs s) (st_symlinks s + 1) t
  | EkOther _ => MkStats (st_files s) (st_dirs s) (st_symlinks s) t
  end.
Definition result_stats (es : list entry) : stats := fold_left stats_step es (MkStats 0 0 0 0).

(** extractor.go:44-51 Size *)
Definition result_size (es : list entry) : Z := fold_left (fun t e => wrap64 (t + en_usize e)) es 0.

(** ** nop_sink.go:10-62 NopSink and nopEntryWriter; nothing has any state.
    Write returns len(buf) and leaves the entry (its WriteOffset) alone. *)
Definition nop_sink : sink := {|
  k_st := unit; k_w := unit;
  k_mkdir := fun s _ => (s, None);
  k_symlink := fun s _ _ => (s, None);
  k_getw := fun s _ => (s, Ok tt);
  k_prealloc := fun s _ => (s, None);
  k_nuke := fun s => (s, None);
  k_close := fun s => (s, None);
  k_write := fun s _ d => (s, (length d, 0, None));
  k_sync := fun s _ => (s, None);
  k_closew := fun s _ => (s, None) |}.

(** ** checker/writer.go *)
(** checker/sink.go:31-35 DoneItem *)
Record ditem := MkDitem { di_min : Z; di_max : Z; di_link : bytes }.

(** checker/writer.go:10-16 Writer, without the pointer doneItem (what it points to is passed
    to Write) *)
Record cwriter := MkCw { cw_ref : bytes; cw_off : Z }.
(** checker/writer.go:20-24 NewWriter *)
Definition cw_new (ref : bytes) : cwriter := MkCw ref 0.

(** checker/writer.go:33-46 the loop of Write: number of bytes accepted, and
    the error. A negative offset would panic; Seek excludes it. *)
Fixpoint cw_loop (ref : bytes) (off : Z) (buf : bytes) : Z * nat * res unit :=
  match buf with
  | [] => (off, 0%nat, Ok tt)
  | b :: buf' =>
      if off >=? zlen ref then (off, 0%nat, Err (EOther 30))
      else if off <? 0 then (off, 0%nat, Panic)
      else match nth_error ref (Z.to_nat off) with
      | Some x => if beqb x b then let '(o, n, r) := cw_loop ref (off + 1) buf' in (o, S n, r)
                  else (off, 0%nat, Err (EOther 31))
      | None => (off, 0%nat, Panic)
      end
  end.
(** checker/writer.go:26-55 Write *)
Definition cw_write (w : cwriter) (di : option ditem) (buf : bytes) : cwriter * option ditem * (nat * res unit) :=
  let di1 := match di with
    | Some d => Some (if cw_off w <? di_min d then MkDitem (cw_off w) (di_max d) (di_link d) else d)
    | None => None end in
  let '(o, n, r) := cw_loop (cw_ref w) (cw_off w) buf in
  let w' := MkCw (cw_ref w) o in
  match r with
  | Ok _ => (w', match di1 with
                 | Some d => Some (if o >? di_max d then MkDitem (di_min d) o (di_link d) else d)
                 | None => None end, (n, r))
  | _ => (w', di1, (n, r))
  end.
(** checker/writer.go:57-72 Seek; whence 0 is io.SeekStart *)
Definition cw_seek (w : cwriter) (off : Z) (whence : Z) : cwriter * res Z :=
  if negb (whence =? 0) then (w, Err (EOther 32))
  else if off >? zlen (cw_ref w) then (w, Err (EOther 33))
  else if off <? 0 then (w, Err (EOther 34))
  else (MkCw (cw_ref w) off, Ok off).

(** ** checker/sink.go *)
(** checker/sink.go:25-28 Item *)
Record citem := MkCitem { ci_entry : entry; ci_data : bytes }.
(** checker/sink.go:17-20 Sink. Items is a Go map, given here as a list of key
    and item in any order (its iteration order); DoneItems maps to pointers, given
    as indices in [cs_heap], the DoneItems ever allocated; [cs_ws]: the writers
    handed out, with the index of their DoneItem. *)
Record cstate := MkCs {
  cs_done : bytes -> option nat; cs_heap : list ditem; cs_ws : list (cwriter * nat) }.
Definition max_int64 : Z := two63 - 1.
(** checker/sink.go:38-48 NewSink, Reset *)
Definition cs_new : cstate := MkCs (fun _ => None) [] [].
Fixpoint assoc {V} (l : list (bytes * V)) (k : bytes) : option V :=
  match l with
  | [] => None
  | (k', v) :: l' => if bytes_eqb k' k then Some v else assoc l' k
  end.
Definition ekind_eqb (a b : ekind) : bool :=
  match a, b with
  | EkDir, EkDir | EkSymlink, EkSymlink | EkFile, EkFile => true
  | EkOther n, EkOther m => n =? m
  | _, _ => false
  end.
Fixpoint set_nth {V} (l : list V) (i : nat) (v : V) : list V :=
  match l, i with
  | [], _ => []
  | _ :: l', O => v :: l'
  | x :: l', S i' => x :: set_nth l' i' v
  end.
Definition empty_ditem : ditem := MkDitem max_int64 0 [].

(** checker/sink.go:143-165 withItem, up to the call of cb: the item, the index of its
    DoneItem (allocated if missing), or the error *)
Definition with_item (items : list (bytes * citem)) (s : cstate) (e : entry) (kind : ekind) : cstate * res (citem * nat) :=
  match assoc items (en_path e) with
  | None => (s, Err (EOther 40))
  | Some it =>
      if negb (ekind_eqb (en_kind (ci_entry it)) kind) then (s, Err (EOther 41))
      else match cs_done s (en_path e) with
      | Some i => (s, Ok (it, i))
      | None =>
          let i := length (cs_heap s) in
          (MkCs (fun p => if bytes_eqb p (en_path e) then Some i else cs_done s p) (cs_heap s ++ [empty_ditem]) (cs_ws s), Ok (it, i))
      end
  end.
Definition upd_ditem (s : cstate) (i : nat) (d : ditem) : cstate := MkCs (cs_done s) (set_nth (cs_heap s) i d) (cs_ws s).

Definition err_of {A} (r : res A) : option gerr := match r with Err e => Some e | _ => None end.

(** checker/sink.go:50-77 Validate; None is nil *)
Fixpoint cs_validate (items : list (bytes * citem)) (s : cstate) : option gerr :=
  match items with
  | [] => None
  | (_, it) :: items' =>
      match cs_done s (en_path (ci_entry it)) with
      | None => Some (EOther 50)
      | Some i =>
          let d := nth i (cs_heap s) empty_ditem in
          match en_kind (ci_entry it) with
          | EkFile =>
              if negb (di_min d =? 0) then Some (EOther 51)
              else if negb (di_max d =? zlen (ci_data it)) then Some (EOther 52)
              else cs_validate items' s
          | EkSymlink => if negb (bytes_eqb (di_link d) (en_link (ci_entry it))) then Some (EOther 53) else cs_validate items' s
          | _ => cs_validate items' s
          end
      end
  end.

(** checker/sink.go:79-137, 173-195: the Sink methods and entryWriter (whose Close does nothing, since
    Writer has no Close). Panics of Write cannot occur (C52) and are mapped to errors. *)
Definition checker_sink (items : list (bytes * citem)) : sink := {|
  k_st := cstate; k_w := nat;
  k_mkdir := fun s e => let '(s', r) := with_item items s e EkDir in (s', err_of r);
  k_symlink := fun s e t =>
    match with_item items s e EkSymlink with
    | (s', Ok (it, i)) =>
        if negb (bytes_eqb (en_link (ci_entry it)) t) then (s', Some (EOther 42))
        else let d := nth i (cs_heap s') empty_ditem in
          (upd_ditem s' i (MkDitem (di_min d) (di_max d) t), None)
    | (s', r) => (s', err_of r)
    end;
  k_getw := fun s e =>
    match with_item items s e EkFile with
    | (s', Ok (it, i)) =>
        let '(w, r) := if negb (en_woff e =? 0) then cw_seek (cw_new (ci_data it)) (en_woff e) 0
                       else (cw_new (ci_data it), Ok 0) in
        match r with
        | Ok _ => (MkCs (cs_done s') (cs_heap s') (cs_ws s' ++ [(w, i)]), Ok (length (cs_ws s')))
        | Err x => (s', Err (with_stack x))
        | Panic => (s', Panic)
        | Hang => (s', Hang)
        end
    | (s', Err x) => (s', Err (with_stack x))
    | (s', Panic) => (s', Panic)
    | (s', Hang) => (s', Hang)
    end;
  k_prealloc := fun s e => let '(s', r) := with_item items s e EkFile in (s', err_of r);
  k_nuke := fun s => (MkCs (fun _ => None) (cs_heap s) (cs_ws s), None);
  k_close := fun s => (s, None);
  k_write := fun s h buf =>
    match nth_error (cs_ws s) h with
    | None => (s, (0%nat, 0, Some (EOther 43)))   (* no such writer: cannot happen *)
    | Some (w, i) =>
        let '(w', di, (n, r)) := cw_write w (nth_error (cs_heap s) i) buf in
        (MkCs (cs_done s) (match di with Some d => set_nth (cs_heap s) i d | None => cs_heap s end) (set_nth (cs_ws s) h (w', i)),
         (n, Z.of_nat n, match r with Ok _ => None | Err x => Some x | _ => Some (EOther 44) end))
    end;
  k_sync := fun s _ => (s, None);
  k_closew := fun s _ => (s, None) |}.

(** ** checker/countersaveconsumer.go:9-37: the consumer given by NewTestSaveConsumer;
    Save passes every checkpoint on to onSave *)
Definition counter_saver {CK DT V} (threshold : Z) (on_save : V -> eckpt CK DT -> V * (bool + gerr)) : saver CK DT :=
  MkSaver (Z * V)%type
    (fun s n => let c := wrap64 (fst s + n) in ((c, snd s), c >? threshold))
    (fun s c => let '(v, r) := on_save (snd s) c in ((0, v), r)).

(** ** semirandom/semirandom.go *)
(** math/rand: a state and Intn, any function of them. The writer: accepts every
    write, except where the list of failures says otherwise: [Some n]: accepts
    at most n bytes and reports an error. *)
Section Semirandom.
  Context (R : Type) (intn : R -> Z -> R * Z).

  (** output: what the writer received so far; semirandom.go:54-59 limitedWriter *)
  Record lwriter := MkLw { lw_out : bytes; lw_orc : list (option nat); lw_c : Z }.

  (** an io.Writer *)
  Definition w_write (out : bytes) (orc : list (option nat)) (d : bytes) : bytes * list (option nat) * nat * option gerr :=
    match orc with
    | [] | None :: _ => (out ++ d, tl orc, length d, None)
    | Some n :: o => (out ++ firstn n d, o, Nat.min n (length d), Some EIO)
    end.

  (** semirandom.go:63-78 limitedWriter.Write *)
  Definition lw_write (max : Z) (w : lwriter) (d : bytes) : lwriter * option gerr :=
    if lw_c w >=? max then (w, None)
    else
      let to_write := if lw_c w + zlen d >? max then Z.to_nat (max - lw_c w) else length d in
      let '(out, orc, n, e) := w_write (lw_out w) (lw_orc w) (firstn to_write d) in
      (MkLw out orc (lw_c w + Z.of_nat n), e).

  (** semirandom.go:29-32: seq[j] = byte(rng.Intn(255)) *)
  Fixpoint sr_fill (n : nat) (r : R) : R * bytes :=
    match n with
    | O => (r, [])
    | S n' => let '(r1, v) := intn r 255 in
              let '(r2, s) := sr_fill n' r1 in
              (r2, ascii_of_nat (Z.to_nat (v mod 256)) :: s)
    end.
  (** semirandom.go:37-42 *)
  Fixpoint sr_repeat (max : Z) (n : nat) (w : lwriter) (seq : bytes) : lwriter * option gerr :=
    match n with
    | O => (w, None)
    | S n' => match lw_write max w seq with
              | (w', None) => sr_repeat max n' w' seq
              | (w', Some e) => (w', Some e)
              end
    end.
  (** semirandom.go:22-34: the sequence to write next. The [seq :=] of :29
      declares a new variable, so the outer one stays nil in that branch. *)
  Definition sr_pick (r : R) (old : list bytes) : R * list bytes * bytes :=
    let '(r1, v) := intn r 100 in
    if (v >=? 80) && (0 <? zlen old) then
      let '(r2, i) := intn r1 (zlen old) in
      (r2, old, nth (Z.to_nat i) old [])
    else
      let '(r2, len) := intn r1 (48 * 1024) in
      let '(r3, s) := sr_fill (Z.to_nat len) r2 in
      (r3, old ++ [s], []).
  (** semirandom.go:21-43 the main loop, one unit of fuel per iteration *)
  Fixpoint sr_loop (fuel : nat) (max : Z) (r : R) (old : list bytes) (w : lwriter) : lwriter * res unit :=
    if lw_c w <? max then
      match fuel with
      | O => (w, Hang)
      | S f =>
          let '(r1, old1, seq) := sr_pick r old in
          let '(r2, k) := intn r1 24 in
          match sr_repeat max (Z.to_nat k) w seq with
          | (w', Some e) => (w', Err e)
          | (w', None) => sr_loop f max r2 old1 w'
          end
      end
    else (w, Ok tt).
  (** semirandom.go:12-46 Write; the state r is rand.NewSource(seed) *)
  Definition sr_write (fuel : nat) (r : R) (length : Z) (orc : list (option nat)) : lwriter * res unit :=
    sr_loop fuel length r [] (MkLw [] orc 0).
  (** semirandom.go:48-52 Bytes: a bytes.Buffer does not fail *)
  Definition sr_bytes (fuel : nat) (r : R) (length : Z) : res bytes :=
    match sr_write fuel r length [] with
    | (w, Ok _) | (w, Err _) => Ok (lw_out w)
    | (_, Panic) => Panic
    | (_, Hang) => Hang
    end.
End Semirandom.
