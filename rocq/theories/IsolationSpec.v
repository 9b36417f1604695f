(** * Contracts next to each other: specification for C71 *)
From Verif Require Import Base StM Core ContainerModel ContainerSpec PIndexModel PIndexSpec StateModel StateSpec StashModel StashSpec StockModel ConsignModel ConsignSpec.
Local Open Scope N_scope.

(** A call which is not about contract [B]: another contract is accepted, the fascia has no
    bundle of [B], and everything which does not speak of contracts *)
Definition not_about (H : Hashes) (B : N) (c : StockCall) : Prop :=
  match c with
  | SkAccept c _ => op_id H (c_genesis c) <> B
  | SkFascia f _ => forall cid b, In (cid, b) (fascia_bundles f) -> cid <> B
  | SkKit _ | SkSeal _ | SkUpdate _ _ | SkStore => True
  end.

(** The witnesses the record of a contract refers to have the same status. *)
Definition same_statuses (s s' : Stock) (cs : ContractState) : Prop :=
  forall w, refers cs w = true -> mget w (ms_witnesses (sk_state s')) = mget w (ms_witnesses (sk_state s)).

(** The history of outputs of a contract is in bundles of the contract. *)
Definition own_history (s : Stock) (B : N) (outputs : list OutSeal) : Prop :=
  forall id bid, found_history s B outputs None id -> states (sk_index s) (FOp id bid) -> states (sk_index s) (FBundle bid B).

(** The witnesses of the bundles of a contract have the same status and anchors. *)
Definition same_witnesses (s s' : Stock) (B : N) : Prop :=
  forall bid w, states (sk_index s) (FBundle bid B) -> states (sk_index s) (FWitness bid w) ->
    mget w (ms_witnesses (sk_state s')) = mget w (ms_witnesses (sk_state s)) /\
    mget w (st_witnesses (sk_stash s')) = mget w (st_witnesses (sk_stash s)).
