(** LossSpec.v -- specification: what a power loss must spare for an extraction
    to be resumable. *)
From Verif Require Import Base Source Sink SinkSpec.

(** The sink was in state [st] when the power failed, and is in state [st']
    afterwards. The entries [done] were complete when the checkpoint was
    saved, the entries [rest] were not; [cur] is the Entry of the checkpoint (the first of
    [rest], with its WriteOffset). Spared is: what is at the locations of the
    entries in [done], unless an entry in [rest] has the same location; their
    parent directories; everything the archive has nothing to do with; and of the file
    [cur], the first WriteOffset bytes. Whatever else there is at the locations of [rest] may
    be lost or damaged, and directories made for [rest] too. *)
Definition loss_spares {SK} (L : sink_laws SK) (done rest : list item) (cur : option entry) (st st' : k_st SK) : Prop :=
  (forall l, ~ some_item_at L rest l -> some_item_at L done l \/ ~ some_item_below L rest l ->
     kl_view L st' l = kl_view L st l) /\
  (forall l, some_item_below L done l -> kl_view L st l = Some NDir -> kl_view L st' l = Some NDir) /\
  (forall e l ct, cur = Some e -> kl_of L e = Some l -> ~ some_item_at L (tl rest) l ->
     kl_view L st l = Some (NFile ct) -> (Z.to_nat (en_woff e) <= length ct)%nat ->
     exists ct', kl_view L st' l = Some (NFile ct') /\ (Z.to_nat (en_woff e) <= length ct')%nat /\
       firstn (Z.to_nat (en_woff e)) ct' = firstn (Z.to_nat (en_woff e)) ct).
