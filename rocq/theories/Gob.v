(** Gob.v -- encoding/gob (external, Go standard library), as far as storing
    checkpoints depends on it: which values can be encoded, what is left out of
    the encoding, and what the decoder makes of that. The byte format and the
    type descriptions in the stream are not modelled: an encoding is a tree. The
    decoder is given a pointer to a zero value, as in
    checker/extractortester.go:119-120 and checker/sourcetester.go:102-103. *)
From Verif Require Import Base Source.
From Coq Require Export String.
#[global] Open Scope Z_scope.
#[global] Open Scope list_scope.

(** Go types. Of a type that is not a struct, pointer, slice or interface only the kind
    matters. Struct fields are those that are exported. *)
Inductive gty :=
| TyInt | TyFloat | TyStr                      (* intN, uintN; float64; string, []byte *)
| TySlice (t : gty) | TyPtr (t : gty) | TyIface
| TyStruct (fs : list (string * gty)).

(** Go values. An interface value carries the name under which its dynamic
    type is known to gob. A float is an exact rational (None: NaN, infinities). *)
Inductive gval :=
| VInt (z : Z) | VFloat (q : option Q) | VStr (s : bytes)
| VSlice (l : list gval) | VPtr (v : option gval) | VIface (v : option (string * gval))
| VStruct (fs : list (string * gval)).

(** What is transmitted. *)
Inductive wire :=
| WInt (z : Z) | WFloat (q : option Q) | WStr (s : bytes)
| WSlice (l : list wire) | WIface (name : string) (w : wire) | WNilIface
| WStruct (fs : list (string * wire)).

(** The zero value of a type. *)
Fixpoint gzero (t : gty) : gval :=
  match t with
  | TyInt => VInt 0
  | TyFloat => VFloat (Some 0%Q)
  | TyStr => VStr []
  | TySlice _ => VSlice []
  | TyPtr _ => VPtr None
  | TyIface => VIface None
  | TyStruct fs => VStruct (map (fun f => (fst f, gzero (snd f))) fs)
  end.

(** The types known to gob by name: what gob.Register was called with. *)
Definition registry := list (string * gty).
Fixpoint assoc {A} (n : string) (l : list (string * A)) : option A :=
  match l with
  | [] => None
  | (m, a) :: l' => if String.eqb n m then Some a else assoc n l'
  end.

(** Encoder.Encode. [sz] ("send zero"): at the top level, within slices and
    within interfaces every value is transmitted, and a nil pointer is an error;
    of a struct, zero fields, empty slices, nil pointers and nil interfaces are left out. Pointers
    are followed. A nested struct is transmitted even if all its fields are zero. None: Encode
    returns an error; Some None: nothing is transmitted. *)
Fixpoint gob_enc (reg : registry) (sz : bool) (v : gval) : option (option wire) :=
  match v with
  | VInt z => Some (if negb sz && (z =? 0) then None else Some (WInt z))
  | VFloat q => Some (if negb sz && match q with Some q' => Qeq_bool q' 0 | None => false end then None else Some (WFloat q))
  | VStr s => Some (if negb sz && match s with [] => true | _ => false end then None else Some (WStr s))
  | VPtr None => if sz then None else Some None
  | VPtr (Some v') => gob_enc reg sz v'
  | VIface None => Some (if sz then Some WNilIface else None)
  | VIface (Some (n, v')) =>
      match assoc n reg with
      | None => None                                     (* type not registered for interface *)
      | Some _ =>
          match gob_enc reg true v' with
          | Some (Some w) => Some (Some (WIface n w))
          | _ => None
          end
      end
  | VSlice l =>
      match
        (fix all (l : list gval) : option (list wire) :=
           match l with
           | [] => Some []
           | v' :: l' =>
               match gob_enc reg true v', all l' with
               | Some (Some w), Some ws => Some (w :: ws)
               | _, _ => None
               end
           end) l
      with
      | None => None
      | Some [] => Some (if sz then Some (WSlice []) else None)
      | Some ws => Some (Some (WSlice ws))
      end
  | VStruct fs =>
      match
        (fix all (fs : list (string * gval)) : option (list (string * wire)) :=
           match fs with
           | [] => Some []
           | (n, v') :: fs' =>
               match gob_enc reg false v', all fs' with
               | Some (Some w), Some ws => Some ((n, w) :: ws)
               | Some None, Some ws => Some ws
               | _, _ => None
               end
           end) fs
      with
      | None => None
      | Some ws => Some (Some (WStruct ws))
      end
  end.

(** Pointers are allocated as needed: the type behind them, and how to get back. *)
Fixpoint under (t : gty) : gty := match t with TyPtr t' => under t' | _ => t end.
Fixpoint wrap_ptrs (t : gty) (v : gval) : gval := match t with TyPtr t' => VPtr (Some (wrap_ptrs t' v)) | _ => v end.

(** Decoder.Decode into a zero value of type [t]. Fields are matched by name; those
    that were not transmitted stay zero. None: Decode returns an error. *)
Fixpoint gob_dec (reg : registry) (w : wire) (t : gty) : option gval :=
  let r :=
    match w, under t with
    | WInt z, TyInt => Some (VInt z)
    | WFloat q, TyFloat => Some (VFloat q)
    | WStr s, TyStr => Some (VStr s)
    | WNilIface, TyIface => Some (VIface None)
    | WIface n w', TyIface =>
        match assoc n reg with
        | None => None                                   (* name not registered for interface *)
        | Some t' => match gob_dec reg w' t' with Some v => Some (VIface (Some (n, v))) | None => None end
        end
    | WSlice l, TySlice t' =>
        match
          (fix all (l : list wire) : option (list gval) :=
             match l with
             | [] => Some []
             | w' :: l' =>
                 match gob_dec reg w' t', all l' with Some v, Some vs => Some (v :: vs) | _, _ => None end
             end) l
        with Some vs => Some (VSlice vs) | None => None end
    | WStruct ws, TyStruct fs =>
        match
          (fix all (fs : list (string * gty)) : option (list (string * gval)) :=
             match fs with
             | [] => Some []
             | (n, t') :: fs' =>
                 match
                   (fix look (ws : list (string * wire)) : option gval :=
                      match ws with
                      | [] => Some (gzero t')
                      | (m, w') :: ws' => if String.eqb n m then gob_dec reg w' t' else look ws'
                      end) ws,
                   all fs'
                 with Some v, Some vs => Some ((n, v) :: vs) | _, _ => None end
             end) fs
        with Some vs => Some (VStruct vs) | None => None end
    | _, _ => None
    end in
  option_map (wrap_ptrs t) r.

(** enc.Encode(p) and then dec.Decode(new(T)), [t] being the type T, in a
    program with the registered types [reg'] *)
Definition gob_encode (reg : registry) (v : gval) : option wire :=
  match gob_enc reg true v with Some (Some w) => Some w | _ => None end.
Definition gob_decode (reg : registry) (t : gty) (w : wire) : option gval := gob_dec reg w t.
