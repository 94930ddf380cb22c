(** Shallow.v -- checkpoints copied by assignment.

    A save consumer that keeps [cp := *checkpoint] has a struct of its own, but
    Entry and SourceCheckpoint are pointers (extractor.go:11-17): the copy shares
    the Entry object with the extractor, whose writer goes on advancing
    Entry.WriteOffset (folder_sink.go:332-342) after Save has returned.
    SourceCheckpoint is a new object for every save (seeksource.go,
    gzipsource.go, ...: each source builds one), which is not modified any more;
    neither (assumed) is what it points to. *)
From Verif Require Import Base Source Decomp Copier Sink Zip.

Section Shallow.
  Context (SK : sink) (C : codec) (fuel0 : nat) (SV : saver (zck C fuel0) unit).

  (** zipextractor.go:167-335: the Entry objects of a run of the loop -- one per
      entry it comes to (:174-177; the first may be the caller's) -- with the
      index of the entry and the state the object is left in (:334 only drops
      the pointer to it). Same recursion as Zip.zip_loop. *)
  Fixpoint zip_objects (io : nat -> zio) (fuel : nat) (files : list zfile) (i : nat) (done total : Z) (x : zx SK C fuel0 SV)
      : list (nat * entry) :=
    match files with
    | [] => []
    | zf :: rest =>
        if x_stoperr SK C fuel0 SV x then []
        else let '(x', r) := zip_entry SK C fuel0 SV (io i) fuel (Z.of_nat i) zf done total x in
        let c := x_ck SK C fuel0 SV x' in
        match ec_entry c with Some e => [(i, e)] | None => [] end ++
        match r with
        | Ok _ =>
            zip_objects io fuel rest (Datatypes.S i) (wrap64 (done + wrap64 (zf_usize zf))) total
              (zx_ck SK C fuel0 SV x' (MkEck None (ec_index c) None (ec_prog c) (ec_data c)))
        | _ => []
        end
    end.

  (** the same for a call of Resume (zipextractor.go:119-347; see Zip.zip_resume) *)
  Definition zip_resume_objects (files : list zfile) (io : nat -> zio) (fuel : nat)
      (c : option (zeck C fuel0)) (s : k_st SK) (v : sv_st SV) : list (nat * entry) :=
    let ck := match c with Some ck => ck | None => MkEck None 0 None (Some 0%Q) None end in
    let '(s1, perr) := match c with None => zip_preallocate SK files s | Some _ => (s, None) end in
    match perr with
    | Some _ => []
    | None =>
        if ec_index ck <? 0 then []
        else let idx := Z.to_nat (ec_index ck) in
        zip_objects io fuel (skipn idx files) idx (sum_sizes (firstn idx files)) (sum_sizes files)
          (MkZx SK C fuel0 SV s1 ck v false false [] [])
    end.

  (** What a shallow copy of the checkpoint [c] has become when the Entry objects
      are [os]: the entry is the shared one, the rest its own. *)
  Fixpoint object (i : nat) (os : list (nat * entry)) : option entry :=
    match os with
    | [] => None
    | (j, e) :: os' => if (i =? j)%nat then Some e else object i os'
    end.
  Definition shallow (os : list (nat * entry)) (c : zeck C fuel0) : zeck C fuel0 :=
    match ec_entry c, object (Z.to_nat (ec_index c)) os with
    | Some _, Some e => MkEck (ec_src c) (ec_index c) (Some e) (ec_prog c) (ec_data c)
    | _, _ => c
    end.
End Shallow.
