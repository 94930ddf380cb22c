(** CopySpec.v -- specification vocabulary for copying: an observer that notes
    every call the copier makes. *)
From Verif Require Import Base Source Copier.

(** One observed call and its result. *)
Inductive cev :=
| VRead (n : Z) (d : bytes) (e : option gerr)   (* Read(buf), len(buf) = n, gave d and e *)
| VWrite (d : bytes) (m : nat) (e : option gerr)  (* Write(d) accepted m bytes *)
| VShould (n : Z) (b : bool)                      (* ShouldSave(n) answered b *)
| VWant                                           (* WantSave() *)
| VEmit.                                          (* EmitProgress() *)

(** The environment [E] under observation: each event comes with the value of
    the stop flag right after the call. *)
Definition observed {X} (E : cenv X) : cenv (X * list (cev * bool)) :=
  let note (x : X) (l : list (cev * bool)) (v : cev) := (x, l ++ [(v, ce_stopped E x)]) in
  {| ce_read := fun xl n =>
       match ce_read E (fst xl) n with
       | (x', RRet d e) => (note x' (snd xl) (VRead (Z.of_nat n) d e), RRet d e)
       | (x', r) => ((x', snd xl), r)
       end;
     ce_write := fun xl d => let '(x', (m, e)) := ce_write E (fst xl) d in (note x' (snd xl) (VWrite d m e), (m, e));
     ce_should := fun xl n => let '(x', b) := ce_should E (fst xl) n in (note x' (snd xl) (VShould n b), b);
     ce_want := fun xl => note (ce_want E (fst xl)) (snd xl) VWant;
     ce_emit := fun xl => note (ce_emit E (fst xl)) (snd xl) VEmit;
     ce_stopped := fun xl => ce_stopped E (fst xl);
     ce_setstop := fun b xl => (ce_setstop E b (fst xl), snd xl) |}.

(** Everything the source delivered, everything handed to the destination. *)
Definition delivered (evs : list (cev * bool)) : bytes :=
  flat_map (fun v => match fst v with VRead _ d _ => d | _ => [] end) evs.
Definition handed (evs : list (cev * bool)) : bytes :=
  flat_map (fun v => match fst v with VWrite d _ _ => d | _ => [] end) evs.
Definition is_read (v : cev * bool) : Prop := match fst v with VRead _ _ _ => True | _ => False end.
Definition is_emit (v : cev * bool) : bool := match fst v with VEmit => true | _ => false end.

(** The chunks that were read without error and written without error. *)
Fixpoint good_chunks (evs : list (cev * bool)) : list Z :=
  match evs with
  | (VRead _ d None, _) :: ((VWrite _ _ None, _) :: _ as evs') => zlen d :: good_chunks evs'
  | _ :: evs' => good_chunks evs'
  | [] => []
  end.
Definition asked (evs : list (cev * bool)) : list Z :=
  flat_map (fun v => match fst v with VShould n _ => [n] | _ => [] end) evs.

(** WantSave is called right after each ShouldSave that answered true, and at
    no other place. *)
Fixpoint wants_ok (after_yes : bool) (evs : list (cev * bool)) : Prop :=
  match evs with
  | [] => after_yes = false
  | (VWant, _) :: evs' => after_yes = true /\ wants_ok false evs'
  | (VShould _ b, _) :: evs' => after_yes = false /\ wants_ok b evs'
  | _ :: evs' => after_yes = false /\ wants_ok false evs'
  end.

(** Progress is emitted right after each write that brings the bytes accepted
    since the last emission above [thr], and at no other place. [cnt]: bytes
    accepted since the last emission. *)
Fixpoint emits_ok (thr cnt : Z) (due : bool) (evs : list (cev * bool)) : Prop :=
  match evs with
  | [] => due = false
  | (VEmit, _) :: evs' => due = true /\ emits_ok thr 0 false evs'
  | (VWrite _ m None, _) :: evs' =>
      due = false /\ emits_ok thr (cnt + Z.of_nat m) (cnt + Z.of_nat m >? thr) evs'
  | _ :: evs' => due = false /\ emits_ok thr cnt false evs'
  end.
