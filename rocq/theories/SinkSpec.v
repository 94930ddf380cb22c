(** SinkSpec.v -- specification: what it means for a Sink to store what it is
    given, and for an archive to have been extracted. *)
From Verif Require Import Base Source Sink.

(** What a sink holds at a location. *)
Inductive node := NDir | NLink (target : bytes) | NFile (content : bytes).

(** [sink_laws SK]: sink [SK] is a store. Each entry has a location (none, if
    the sink ignores the entry); [kl_view] is what is found there; [kl_anc l' l]:
    l' is a parent directory of l, created on demand. Operations may fail at any
    time, also halfway, unless the sink is [kl_clean]. [kl_valid]: the entries
    this is claimed for (a folder cannot store both a file "a" and a file "a/b"). *)
Record sink_laws (SK : sink) := MkSinkLaws {
  kl_loc : Type;
  kl_dec : forall a b : kl_loc, {a = b} + {a <> b};
  kl_of : entry -> option kl_loc;
  kl_anc : kl_loc -> kl_loc -> Prop;
  kl_valid : entry -> Prop;
  kl_vlink : entry -> bytes -> Prop;   (* acceptable symlink targets *)
  kl_fits : kl_loc -> bytes -> Prop;   (* acceptable contents of files, and of files being written *)
  kl_view : k_st SK -> kl_loc -> option node;
  kl_inv : k_st SK -> Prop;
  kl_clean : k_st SK -> Prop;
  (** w is a usable writer at this location, next write at this offset *)
  kl_open : k_st SK -> k_w SK -> option kl_loc -> nat -> Prop;

  (** all other locations are untouched, except that missing parents of [o]
      may have been created *)
  kl_frame := (fun (st st' : k_st SK) (o : option kl_loc) =>
    forall l', o <> Some l' -> kl_view st' l' = kl_view st l' \/
      exists l, o = Some l /\ kl_anc l' l /\ kl_view st l' = None /\ kl_view st' l' = Some NDir)
    : k_st SK -> k_st SK -> option kl_loc -> Prop;
  kl_parents := (fun (st : k_st SK) (l : kl_loc) => forall l', kl_anc l' l -> kl_view st l' = Some NDir)
    : k_st SK -> kl_loc -> Prop;

  kl_of_woff : forall e w, kl_of (set_woff e w) = kl_of e;
  kl_valid_woff : forall e w, kl_valid e -> kl_valid (set_woff e w);
  kl_vlink_woff : forall e w t, kl_vlink e t -> kl_vlink (set_woff e w) t;
  kl_anc_dir : forall e e' l l', kl_valid e -> kl_valid e' -> kl_of e = Some l -> kl_of e' = Some l' ->
    kl_anc l' l -> en_kind e' = EkDir;

  kl_mkdir : forall st e st' r, kl_inv st -> kl_valid e -> en_kind e = EkDir -> k_mkdir SK st e = (st', r) ->
    kl_inv st' /\ kl_frame st st' (kl_of e) /\ (kl_clean st -> kl_clean st' /\ r = None) /\
    (forall l, kl_of e = Some l -> kl_view st l = Some NDir -> kl_view st' l = Some NDir) /\
    (r = None -> forall l, kl_of e = Some l -> kl_view st' l = Some NDir /\ kl_parents st' l);

  kl_symlink : forall st e t st' r, kl_inv st -> kl_valid e -> en_kind e = EkSymlink -> k_symlink SK st e t = (st', r) ->
    kl_inv st' /\ kl_frame st st' (kl_of e) /\ (kl_clean st -> kl_clean st' /\ (kl_vlink e t -> r = None)) /\
    (r = None -> forall l, kl_of e = Some l -> kl_view st' l = Some (NLink t) /\ kl_parents st' l);

  kl_prealloc : forall st e st' r, kl_inv st -> kl_valid e -> en_kind e = EkFile -> k_prealloc SK st e = (st', r) ->
    kl_inv st' /\ kl_frame st st' (kl_of e) /\ (kl_clean st -> kl_clean st' /\ r = None);

  kl_getw : forall st e st' r, kl_inv st -> kl_valid e -> en_kind e = EkFile -> 0 <= en_woff e ->
    (forall l, kl_of e = Some l -> exists c, kl_fits l c /\ length c = Z.to_nat (en_woff e)) ->
    k_getw SK st e = (st', r) ->
    kl_inv st' /\ kl_frame st st' (kl_of e) /\
    (* what was there up to WriteOffset is kept *)
    (forall l c n, kl_of e = Some l -> kl_view st l = Some (NFile c) -> (n <= Z.to_nat (en_woff e))%nat -> (n <= length c)%nat ->
       exists c', kl_view st' l = Some (NFile c') /\ (n <= length c')%nat /\ firstn n c' = firstn n c) /\
    match r with
    | Ok w => (kl_clean st -> kl_clean st') /\ kl_open st' w (kl_of e) (Z.to_nat (en_woff e)) /\
        forall l, kl_of e = Some l -> kl_parents st' l
    | Err _ => ~ kl_clean st
    | _ => False
    end;

  (** a file being written to ends at the writer's offset *)
  kl_open_file : forall st w l off, kl_inv st -> kl_open st w (Some l) off ->
    exists c, kl_view st l = Some (NFile c) /\ length c = off;

  kl_write : forall st w o off d st' n adv e, kl_inv st -> kl_open st w o off ->
    (forall l c, o = Some l -> kl_view st l = Some (NFile c) -> kl_fits l (c ++ d)) ->
    k_write SK st w d = (st', (n, adv, e)) ->
    kl_inv st' /\ (n <= length d)%nat /\ (e = None -> n = length d) /\ (kl_clean st -> kl_clean st' /\ e = None) /\
    match o with
    | Some l => adv = Z.of_nat n /\ kl_open st' w o (off + n) /\
        (forall l', l' <> l -> kl_view st' l' = kl_view st l') /\
        (forall c, kl_view st l = Some (NFile c) -> kl_view st' l = Some (NFile (c ++ firstn n d)))
    | None => adv = 0 /\ kl_open st' w None off /\ forall l', kl_view st' l' = kl_view st l'
    end;

  kl_sync : forall st w o off st' r, kl_inv st -> kl_open st w o off -> k_sync SK st w = (st', r) ->
    kl_inv st' /\ kl_open st' w o off /\ (kl_clean st -> kl_clean st' /\ r = None) /\
    forall l', kl_view st' l' = kl_view st l';

  kl_closew : forall st w o off st' r, kl_inv st -> kl_open st w o off -> k_closew SK st w = (st', r) ->
    kl_inv st' /\ (kl_clean st -> kl_clean st') /\ forall l', kl_view st' l' = kl_view st l' }.

Arguments kl_loc {SK}. Arguments kl_dec {SK}. Arguments kl_of {SK}. Arguments kl_anc {SK}.
Arguments kl_valid {SK}. Arguments kl_vlink {SK}. Arguments kl_fits {SK}. Arguments kl_view {SK}. Arguments kl_inv {SK}.
Arguments kl_clean {SK}. Arguments kl_open {SK}. Arguments kl_frame {SK}. Arguments kl_parents {SK}.

(** An archive to be extracted, as a list of what each entry stands for. *)
Definition item : Type := entry * node.

Section Extracted.
  Context {SK : sink} (L : sink_laws SK) (items : list item).

  (** the i-th item is the last one for its location *)
  Definition is_last (i : nat) (l : kl_loc L) : Prop :=
    forall j it, (i < j)%nat -> nth_error items j = Some it -> kl_of L (fst it) <> Some l.

  (** The sink can store these items: it takes the entries, and the contents of
      the files -- at their locations it takes anything, or at least what the
      item says, if that is the last one for the location. *)
  Definition storable : Prop :=
    (forall it, In it items -> kl_valid L (fst it)) /\
    (forall i e D l, nth_error items i = Some (e, NFile D) -> kl_of L e = Some l ->
       (forall c, kl_fits L l c) \/ (is_last i l /\ forall n, kl_fits L l (firstn n D))).

  Definition some_item_at (l : kl_loc L) : Prop := exists it, In it items /\ kl_of L (fst it) = Some l.
  Definition some_item_below (l : kl_loc L) : Prop :=
    exists it l1, In it items /\ kl_of L (fst it) = Some l1 /\ kl_anc L l l1.

  (** [extracted view0 st]: st holds the archive: every entry's location holds
      what the (last) entry for it says, their parents are directories, and
      everything else is as in [view0]. *)
  Definition extracted (view0 : kl_loc L -> option node) (st : k_st SK) : Prop :=
    (forall i e nd l, nth_error items i = Some (e, nd) -> kl_of L e = Some l -> is_last i l ->
       kl_view L st l = Some nd) /\
    (forall l, some_item_below l -> ~ some_item_at l -> kl_view L st l = Some NDir) /\
    (forall l, ~ some_item_at l -> ~ some_item_below l -> kl_view L st l = view0 l).
End Extracted.

(** The sink [SK] in a process that dies: after [n] more operations (if given),
    nothing reaches the sink any more. Every state a sink can be in when the
    process is killed between two operations arises in this way; being killed in
    the middle of an operation is a failure of [SK] itself. *)
Definition crashing (SK : sink) : sink :=
  let st := (k_st SK * option nat)%type in
  let op (A : Type) (s : st) (dead : A) (f : k_st SK -> k_st SK * A) : st * A :=
    match snd s with
    | Some O => (s, dead)
    | Some (S n) => let '(t, a) := f (fst s) in ((t, Some n), a)
    | None => let '(t, a) := f (fst s) in ((t, None), a)
    end in
  {| k_st := st; k_w := k_w SK;
     k_mkdir := fun s e => op _ s (Some EIO) (fun t => k_mkdir SK t e);
     k_symlink := fun s e l => op _ s (Some EIO) (fun t => k_symlink SK t e l);
     k_getw := fun s e => op _ s (Err EIO) (fun t => k_getw SK t e);
     k_prealloc := fun s e => op _ s (Some EIO) (fun t => k_prealloc SK t e);
     k_nuke := fun s => op _ s (Some EIO) (fun t => k_nuke SK t);
     k_close := fun s => op _ s (Some EIO) (fun t => k_close SK t);
     k_write := fun s w d => op _ s (O, 0, Some EIO) (fun t => k_write SK t w d);
     k_sync := fun s w => op _ s (Some EIO) (fun t => k_sync SK t w);
     k_closew := fun s w => op _ s (Some EIO) (fun t => k_closew SK t w) |}.
