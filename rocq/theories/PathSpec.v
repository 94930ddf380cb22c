(** PathSpec.v -- what "lexically inside a directory" means, written without
    reference to the functions of Path.v other than splitting at slashes.

    A path is read component by component, walking from a current absolute
    location (a list of names, root first): "" and "." stay, ".." goes to the
    parent (the root is its own parent), any other name goes down. *)
From Verif Require Import Base Path.

Fixpoint walk (cur : list bytes) (cs : list bytes) : list bytes :=
  match cs with
  | [] => cur
  | c :: cs' =>
      if bytes_eqb c [] || bytes_eqb c (s2b ".") then walk cur cs'
      else if bytes_eqb c (s2b "..") then walk (removelast cur) cs'
      else walk (cur ++ [c]) cs'
  end.

(** location denoted by path string [p] when standing at [cur] *)
Definition locate (cur : list bytes) (p : bytes) : list bytes :=
  walk (if is_abs p then [] else cur) (split_slash p).

(** location of the sink's Directory, given the process working directory *)
Definition base_loc (wd dir : bytes) : list bytes := locate (locate [] wd) dir.

(** [t] is [b] or below it *)
Definition at_or_below (b t : list bytes) : Prop := exists rest, t = b ++ rest.

Fixpoint at_or_belowb (b t : list bytes) : bool :=
  match b, t with
  | [], _ => true
  | x :: b', y :: t' => bytes_eqb x y && at_or_belowb b' t'
  | _ :: _, [] => false
  end.

(** absolute path string of a location *)
Definition render (l : list bytes) : bytes := slash :: join_slash l.
