(** Path.v -- model of the Unix versions of the path functions that savior
    calls: path/filepath.{Clean,Join,Abs,Dir,IsAbs,IsLocal,FromSlash,ToSlash},
    path.Base, strings.{HasPrefix,ReplaceAll}. These are Go standard library
    functions; they are modelled on byte strings, component-wise.
    (Simplification: Unix only, filepath.Separator = '/'; Clean is given by its
    documented component algorithm instead of Go's in-place buffer.) *)
From Verif Require Import Base.

Definition slash : byte := "/"%char.
Definition backslash : byte := "\"%char.
Definition dot : bytes := s2b ".".
Definition dotdot : bytes := s2b "..".

(** strings.Split(s, "/"). Never empty. *)
Fixpoint split_slash (s : bytes) : list bytes :=
  match s with
  | [] => [[]]
  | c :: s' =>
      if beqb c slash then [] :: split_slash s'
      else match split_slash s' with
           | [] => [[c]]
           | w :: ws => (c :: w) :: ws
           end
  end.

(** strings.Join(l, "/") *)
Fixpoint join_slash (l : list bytes) : bytes :=
  match l with
  | [] => []
  | [w] => w
  | w :: ws => w ++ slash :: join_slash ws
  end.

(** filepath.IsAbs (Unix): used in folder_sink.go:274 *)
Definition is_abs (p : bytes) : bool :=
  match p with c :: _ => beqb c slash | [] => false end.

(** filepath.Clean, one component: [st] is the output so far, last component
    first. "." and "" vanish, ".." removes the last component unless there is
    none (then it is kept for relative paths, dropped for rooted ones). *)
Definition clean_push (rooted : bool) (st : list bytes) (c : bytes) : list bytes :=
  if bytes_eqb c [] || bytes_eqb c dot then st
  else if bytes_eqb c dotdot then
    match st with
    | [] => if rooted then [] else [dotdot]
    | t :: st' => if bytes_eqb t dotdot then dotdot :: st else st'
    end
  else c :: st.

Definition clean_comps (rooted : bool) (cs : list bytes) : list bytes :=
  rev (fold_left (clean_push rooted) cs []).

(** filepath.Clean *)
Definition clean (p : bytes) : bytes :=
  let rooted := is_abs p in
  let cs := clean_comps rooted (split_slash p) in
  if rooted then slash :: join_slash cs
  else match cs with [] => dot | _ => join_slash cs end.

(** filepath.Join(a, b) (Unix) *)
Definition path_join (a b : bytes) : bytes :=
  match a with
  | [] => match b with [] => [] | _ => clean b end
  | _ => clean (a ++ slash :: b)
  end.

(** filepath.Abs: [wd] is os.Getwd() (assumed not to fail). *)
Definition path_abs (wd p : bytes) : bytes :=
  if is_abs p then clean p else path_join wd p.

(** filepath.FromSlash / ToSlash: identity on Unix. *)
Definition from_slash (p : bytes) : bytes := p.
Definition to_slash (p : bytes) : bytes := p.

(** everything up to and including the last slash *)
Fixpoint upto_last_slash (p : bytes) : bytes :=
  match p with
  | [] => []
  | c :: p' =>
      match upto_last_slash p' with
      | [] => if beqb c slash then [c] else []
      | r => c :: r
      end
  end.

(** filepath.Dir *)
Definition path_dir (p : bytes) : bytes := clean (upto_last_slash p).

(** strip trailing slashes *)
Fixpoint strip_slashes (p : bytes) : bytes :=
  match p with
  | [] => []
  | c :: p' => match strip_slashes p' with
               | [] => if beqb c slash then [] else [c]
               | r => c :: r
               end
  end.

(** path.Base *)
Definition path_base (p : bytes) : bytes :=
  match p with
  | [] => dot
  | _ => match strip_slashes p with
         | [] => [slash]
         | q => List.last (split_slash q) []
         end
  end.

(** strings.HasPrefix(s, pre) *)
Fixpoint has_prefix (pre s : bytes) : bool :=
  match pre, s with
  | [], _ => true
  | _ :: _, [] => false
  | a :: pre', b :: s' => beqb a b && has_prefix pre' s'
  end.

(** filepath.IsLocal (Unix): unixIsLocal *)
Definition has_dots (p : bytes) : bool :=
  existsb (fun c => bytes_eqb c dot || bytes_eqb c dotdot) (split_slash p).
Definition is_local (p : bytes) : bool :=
  if is_abs p || bytes_eqb p [] then false
  else let p' := if has_dots p then clean p else p in
       negb (bytes_eqb p' dotdot || has_prefix (s2b "../") p').

(** strings.ReplaceAll(s, `\`, "/") -- zipextractor.go:91 *)
Definition replace_backslashes (s : bytes) : bytes :=
  map (fun c => if beqb c backslash then slash else c) s.

(** ** The two path decisions made by FolderSink (folder_sink.go) *)

(** folder_sink.go:41-51 shouldIgnorePath *)
Definition icon_cr : bytes := s2b "Icon" ++ [ascii_of_nat 13].
Definition should_ignore (cp : bytes) : bool := bytes_eqb (path_base cp) icon_cr.

(** folder_sink.go:69 / :283 -- the test
    [!HasPrefix(p, absBase+"/") && p != absBase], negated *)
Definition within_base (absBase p : bytes) : bool :=
  has_prefix (absBase ++ [slash]) p || bytes_eqb p absBase.

(** folder_sink.go:58-73 destPath *)
Definition dest_path (wd dir cp : bytes) : res bytes :=
  let absBase := path_abs wd dir in
  let joined := path_join absBase (from_slash cp) in
  let absJoined := path_abs wd joined in
  if negb (within_base absBase absJoined) then Err ETraversal
  else Ok absJoined.

(** folder_sink.go:266-285: validation of a symlink target *)
Definition check_link (wd dir dstpath linkname : bytes) : res unit :=
  let symlinkDir := path_dir dstpath in
  let absBase := path_abs wd dir in
  if is_abs linkname then Err ETraversal
  else
    let resolved := path_join symlinkDir linkname in
    let absTarget := path_abs wd resolved in
    if negb (within_base absBase absTarget) then Err ETraversal
    else Ok tt.
