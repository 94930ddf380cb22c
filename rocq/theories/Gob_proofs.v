(** Gob_proofs.v -- storing and loading values. *)
From Verif Require Import Base Source Seek Decomp Drive SpoilSpec Sink Tar Gob GobCk GobSpec.
Local Open Scope string_scope. Local Open Scope list_scope. Local Open Scope Z_scope.

Section Gob.
  Context (reg reg' : registry).
  Notation enc := (gob_enc reg).
  Notation dec := (gob_dec reg').

  (** transmitted in any case / as a field of a struct *)
  Definition trips (t : gty) (v : gval) : Prop := exists w, enc true v = Some (Some w) /\ dec w t = Some v.
  Definition ftrips (t : gty) (v : gval) : Prop :=
    exists ow, enc false v = Some ow /\ match ow with None => gzero t = v | Some w => dec w t = Some v end.

  Lemma survives_trips t v : survives reg reg' t v <-> trips t v.
  Proof.
    unfold survives, trips, gob_encode, gob_decode. split.
    - intros (w & H1 & H2). destruct (enc true v) as [[w'|]|]; try discriminate. injection H1 as ->. eauto.
    - intros (w & H1 & H2). rewrite H1. eauto.
  Qed.

  Lemma f_int z : ftrips TyInt (VInt z).
  Proof.
    destruct (Z.eqb_spec z 0) as [-> |Hz].
    - exists None. split; reflexivity.
    - exists (Some (WInt z)). split; [|reflexivity]. cbn. destruct (Z.eqb_spec z 0); [contradiction|reflexivity].
  Qed.
  Lemma f_str s : ftrips TyStr (VStr s).
  Proof.
    destruct s as [|b s].
    - exists None. split; reflexivity.
    - exists (Some (WStr (b :: s))). split; reflexivity.
  Qed.
  Lemma f_float q : ftrips TyFloat (VFloat (option_map Qred q)).
  Proof.
    destruct q as [q|].
    - cbn [option_map]. destruct (Qeq_bool (Qred q) 0) eqn:Hq.
      + exists None. split; [cbn; rewrite Hq; reflexivity|]. cbn.
        apply Qeq_bool_eq in Hq. assert (Hr : Qred (Qred q) = Qred 0) by (apply Qred_complete; exact Hq).
        assert (Hi : Qred (Qred q) = Qred q) by (apply Qred_complete; apply Qred_correct).
        rewrite <- Hi, Hr. reflexivity.
      + exists (Some (WFloat (Some (Qred q)))). split; [cbn; rewrite Hq; reflexivity|reflexivity].
    - exists (Some (WFloat None)). split; reflexivity.
  Qed.

  Lemma dec_ptr w t v : dec w t = Some v -> dec w (TyPtr t) = Some (VPtr (Some v)).
  Proof.
    intros H. destruct w; cbn [gob_dec under] in H |- *;
      match goal with |- option_map _ ?r = _ => change (option_map (wrap_ptrs t) r = Some v) in H; destruct r as [x|]; [|discriminate H] end;
      cbn [option_map wrap_ptrs] in *; injection H as ->; reflexivity.
  Qed.

  Lemma t_ptr t v : trips t v -> trips (TyPtr t) (VPtr (Some v)).
  Proof. intros (w & H1 & H2). exists w. split; [exact H1|]. apply dec_ptr. exact H2. Qed.

  Lemma f_ptr t fs : trips t (VStruct fs) -> ftrips (TyPtr t) (VPtr (Some (VStruct fs))).
  Proof.
    intros (w & H1 & H2). exists (Some w). split; [exact H1|]. apply dec_ptr. exact H2.
  Qed.
  Lemma f_optptr {A} t (f : A -> gval) (o : option A) : (forall a, exists fs, f a = VStruct fs) ->
    (forall a, o = Some a -> trips t (f a)) -> ftrips (TyPtr t) (VPtr (option_map f o)).
  Proof.
    intros Hf H. destruct o as [a|].
    - cbn. specialize (H a eq_refl). destruct (Hf a) as [fs Hfs]. rewrite Hfs in *. apply f_ptr. exact H.
    - exists None. split; reflexivity.
  Qed.

  Lemma f_iface (o : option (string * gval)) :
    (forall n v, o = Some (n, v) -> (exists t0, assoc n reg = Some t0) /\ exists t, assoc n reg' = Some t /\ trips t v) ->
    ftrips TyIface (VIface o).
  Proof.
    intros H. destruct o as [[n v]|].
    - destruct (H n v eq_refl) as ((t0 & H0) & t & H1 & w & H2 & H3). exists (Some (WIface n w)). split.
      + cbn [gob_enc]. rewrite H0, H2. reflexivity.
      + cbn [gob_dec under]. rewrite H1, H3. reflexivity.
    - exists None. split; reflexivity.
  Qed.

  Lemma f_slice t l : Forall (trips t) l -> ftrips (TySlice t) (VSlice l).
  Proof.
    intros H.
    set (all := fix all (l : list gval) : option (list wire) :=
           match l with
           | [] => Some []
           | v' :: l' => match enc true v', all l' with Some (Some w), Some ws => Some (w :: ws) | _, _ => None end
           end).
    set (back := fix all (l : list wire) : option (list gval) :=
             match l with
             | [] => Some []
             | w' :: l' => match dec w' t, all l' with Some v, Some vs => Some (v :: vs) | _, _ => None end
             end).
    assert (Ha : exists ws, all l = Some ws /\ back ws = Some l).
    { induction H as [|v l (w & E1 & E2) Hl (ws & E3 & E4)].
      - exists []. split; reflexivity.
      - exists (w :: ws). split; [cbn; rewrite E1; fold all; rewrite E3; reflexivity|cbn; rewrite E2; fold back; rewrite E4; reflexivity]. }
    destruct Ha as (ws & E3 & E4).
    change (exists ow, match all l with None => None | Some [] => Some None | Some ws => Some (Some (WSlice ws)) end = Some ow /\
      match ow with None => VSlice [] = VSlice l | Some w => dec w (TySlice t) = Some (VSlice l) end).
    rewrite E3. destruct ws as [|w ws].
    - exists None. split; [reflexivity|]. destruct l as [|v l]; [reflexivity|]. discriminate E4.
    - exists (Some (WSlice (w :: ws))). split; [reflexivity|].
      change (option_map (fun x => x) (match back (w :: ws) with Some vs => Some (VSlice vs) | None => None end) = Some (VSlice l)).
      rewrite E4. reflexivity.
  Qed.

  (** A struct with distinct field names. *)
  Definition enc_fields := fix all (fs : list (string * gval)) : option (list (string * wire)) :=
           match fs with
           | [] => Some []
           | (n, v') :: fs' =>
               match enc false v', all fs' with
               | Some (Some w), Some ws => Some ((n, w) :: ws)
               | Some None, Some ws => Some ws
               | _, _ => None
               end
           end.
  Definition dec_field_of (n : string) (t : gty) := fix look (ws : list (string * wire)) : option gval :=
                      match ws with
                      | [] => Some (gzero t)
                      | (m, w') :: ws' => if String.eqb n m then dec w' t else look ws'
                      end.
  Definition dec_fields (ws : list (string * wire)) := fix all (fs : list (string * gty)) : option (list (string * gval)) :=
             match fs with
             | [] => Some []
             | (n, t') :: fs' =>
                 match dec_field_of n t' ws, all fs' with Some v, Some vs => Some ((n, v) :: vs) | _, _ => None end
             end.
  Lemma enc_struct fs sz : enc sz (VStruct fs) = match enc_fields fs with None => None | Some ws => Some (Some (WStruct ws)) end.
  Proof. reflexivity. Qed.
  Lemma dec_struct ws ts : dec (WStruct ws) (TyStruct ts) = option_map VStruct (dec_fields ws ts).
  Proof.
    change (dec (WStruct ws) (TyStruct ts)) with (option_map (fun v : gval => v) (match dec_fields ws ts with Some vs => Some (VStruct vs) | None => None end)).
    destruct (dec_fields ws ts); reflexivity.
  Qed.

  Lemma enc_fields_names fs ws : enc_fields fs = Some ws -> forall n, In n (map fst ws) -> In n (map fst fs).
  Proof.
    revert ws. induction fs as [|[m v] fs IH]; intros ws H n Hn.
    - injection H as <-. exact Hn.
    - cbn in H. fold enc_fields in H. destruct (enc false v) as [[w|]|]; [| |discriminate]; (destruct (enc_fields fs) as [ws'|]; [|discriminate]).
      + injection H as <-. destruct Hn as [Hn|Hn]; [left; exact Hn|right; exact (IH _ eq_refl _ Hn)].
      + injection H as <-. right. exact (IH _ eq_refl _ Hn).
  Qed.
  Lemma dec_absent n t ws : ~ In n (map fst ws) -> dec_field_of n t ws = Some (gzero t).
  Proof.
    induction ws as [|[m w] ws IH]; intros H; [reflexivity|]. cbn. fold (dec_field_of n t).
    destruct (String.eqb_spec n m) as [-> |Hne]; [destruct H; left; reflexivity|]. apply IH. intros Hi. apply H. right. exact Hi.
  Qed.
  Lemma dec_fields_skip m w ws ts : ~ In m (map fst ts) -> dec_fields ((m, w) :: ws) ts = dec_fields ws ts.
  Proof.
    induction ts as [|[n t] ts IH]; intros H; [reflexivity|].
    cbn. destruct (String.eqb_spec n m) as [-> |Hne]; [destruct H; left; reflexivity|].
    fold (dec_field_of n t). fold (dec_fields ((m, w) :: ws)). fold (dec_fields ws).
    rewrite IH; [reflexivity|]. intros Hi. apply H. right. exact Hi.
  Qed.

  Lemma t_struct (ts : list (string * gty)) (fs : list (string * gval)) :
    NoDup (map fst ts) -> Forall2 (fun a b => fst a = fst b /\ ftrips (snd a) (snd b)) ts fs ->
    trips (TyStruct ts) (VStruct fs).
  Proof.
    intros Hnd H.
    assert (Ha : exists ws, enc_fields fs = Some ws /\ dec_fields ws ts = Some fs).
    { induction H as [|[n t] [m v] ts fs [Hn (ow & E1 & E2)] Hl IH].
      - exists []. split; reflexivity.
      - cbn in Hn, E1, E2. subst m. inversion Hnd as [|? ? Hni Hnd']. subst. destruct (IH Hnd') as (ws & E3 & E4).
        assert (Hf : map fst fs = map fst ts) by (clear - Hl; induction Hl as [|x y ? ? [H1 _] _ IH]; cbn; congruence).
        assert (Hws : ~ In n (map fst ws)).
        { intros Hi. apply Hni. rewrite <- Hf. exact (enc_fields_names _ _ E3 _ Hi). }
        destruct ow as [w|].
        + exists ((n, w) :: ws). split; [cbn; rewrite E1; fold enc_fields; rewrite E3; reflexivity|].
          cbn. rewrite String.eqb_refl, E2. fold (dec_fields ((n, w) :: ws)). rewrite dec_fields_skip by exact Hni. rewrite E4. reflexivity.
        + exists ws. split; [cbn; rewrite E1; fold enc_fields; rewrite E3; reflexivity|].
          cbn. fold (dec_field_of n t ws). fold (dec_fields ws). rewrite E4.
          change (match dec_field_of n t ws with Some v0 => Some ((n, v0) :: fs) | None => None end = Some ((n, v) :: fs)).
          rewrite (dec_absent n t ws Hws), E2. reflexivity. }
    destruct Ha as (ws & E3 & E4). exists (WStruct ws). split.
    - rewrite enc_struct, E3. reflexivity.
    - rewrite dec_struct, E4. reflexivity.
  Qed.
End Gob.
