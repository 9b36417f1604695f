(** * What can be exported stays exportable: specification for C80 *)
From Verif Require Import Base StM Core MergeSpec ContainerModel ContainerSpec PIndexModel PIndexSpec StateModel StateSpec StashModel StashSpec StockModel.
From Verif Require Import ConsignModel ConsignSpec.
Local Open Scope N_scope.

(** The bundles which the calls bring come with an anchor for their own closing method, which
    commits to the bundle as the message of its contract. *)
Definition well_anchored (H : Hashes) (calls : list StockCall) : Prop :=
  (forall c r w a b, In (SkAccept c r) calls -> holds c w a b -> dp_method (ea_dbc a) = b_method b) /\
  (forall f r cid b, In (SkFascia f r) calls -> In (cid, b) (fascia_bundles f) -> exists an,
     match b_method b with TapretFirst => tapret_of (fa_anchor f) | OpretFirst => opret_of (fa_anchor f) end = Some an /\
     mget cid (an_known an) = Some (bundle_id H b)).

(** The history of what is asked for is in bundles of the contract. *)
Definition in_contract (s : Stock) (cid : N) (outputs : list OutSeal) (secret : option N) : Prop :=
  forall id bid, found_history s cid outputs secret id -> states (sk_index s) (FOp id bid) -> states (sk_index s) (FBundle bid cid).

(** [t'] is the transition [t], with nothing concealed which is revealed in [t]. *)
Definition no_less (H : Hashes) (t t' : Operation) : Prop :=
  op_id H t' = op_id H t /\
  forall ty no a, slot t ty no = Some a -> exists a', slot t' ty no = Some a' /\
    (forall x, revealed_seal a = Some x -> revealed_seal a' = Some x) /\
    (forall x, revealed_state a = Some x -> revealed_state a' = Some x).

(** The consignment [c'] shows the transitions of [c], and the same terminals. *)
Definition shows_as_much (H : Hashes) (c c' : Consignment) : Prop :=
  op_id H (c_genesis c') = op_id H (c_genesis c) /\
  (forall bid x, mget bid (c_terminals c') = Some x <-> mget bid (c_terminals c) = Some x) /\
  forall w a b, holds c w a b -> exists w' a' b', holds c' w' a' b' /\
    bundle_id H b' = bundle_id H b /\
    forall id t, mget id (b_known b) = Some t -> exists t', mget id (b_known b') = Some t' /\ no_less H t t'.
