(** * A payment which was recorded can be handed over: specification for C90 *)
From Verif Require Import Base StM Core MergeSpec ContainerModel ContainerSpec PIndexModel PIndexSpec StateModel StateSpec StashModel StashSpec StockModel.
From Verif Require Import LedgerSpec ReplicaSpec ConsignModel ConsignSpec FasciaProps GrowSpec.
Local Open Scope N_scope.

(** The fascia moves the contract [cid] by the transition [t], known as [id]. *)
Definition moved (f : Fascia) (cid id : N) (t : Operation) : Prop :=
  exists b, In (cid, b) (fascia_bundles f) /\ In (id, t) (b_known b).

(** What its transitions for the contract spend is found at the outputs [prev], or made by
    the fascia itself. *)
Definition spends_from (s : Stock) (f : Fascia) (cid : N) (prev : list OutSeal) : Prop :=
  forall id t i, moved f cid id t -> In i (op_inputs t) ->
    found s cid prev None i \/ exists t', moved f cid (oo_op i) t'.

(** The bundles of the fascia are not in the stock, and are distinct. *)
Definition new_bundles (H : Hashes) (s : Stock) (f : Fascia) : Prop :=
  (forall cid b, In (cid, b) (fascia_bundles f) -> mget (bundle_id H b) (st_bundles (sk_stash s)) = None) /\
  NoDup (map (fun p => bundle_id H (snd p)) (fascia_bundles f)).

(** The bundles of the stock name the transitions which they show. *)
Definition stock_named (s : Stock) : Prop := forall bid b, mget bid (st_bundles (sk_stash s)) = Some b -> all_named b.

(** Only the contract [cid] pays to the secret seal [x]; no bundle has two outputs assigned to it,
    and the bundles are not too many for the terminals of a consignment. *)
Definition pays_once (H : Hashes) (f : Fascia) (x cid : N) : Prop :=
  (forall c id t ty no, moved f c id t -> assigned_to H t ty no x -> c = cid) /\
  (forall b id t ty no id' t' ty' no', In (cid, b) (fascia_bundles f) -> In (id, t) (b_known b) -> In (id', t') (b_known b) ->
     assigned_to H t ty no x -> assigned_to H t' ty' no' x -> id' = id /\ ty' = ty /\ no' = no) /\
  len (fascia_bundles f) <= U16MAX.

Section Paid.
Context {OG : OrdKey GlobalOut} (H : Hashes) (K : Merkle) (calls : list StockCall) (f : Fascia) (r : Resolver) (cid : N) (prev : list OutSeal).
(** The history: calls which all succeed, of which the last one records the payment *)
Record paid : Prop := {
  pa_calls : forall x, In x (calls ++ [SkFascia f r]) -> ledger_call_ok H x;
  pa_anchors : forall f' r', In (SkFascia f' r') (calls ++ [SkFascia f r]) -> anchor_wf (fa_anchor f');
  pa_succeed : all_calls_succeed H K sk_empty (calls ++ [SkFascia f r]);
  pa_anchored : well_anchored H (calls ++ [SkFascia f r]);
  pa_message : one_message H (calls ++ [SkFascia f r]);
  pa_status : forall w sw, stash_witness (sk_stash (stock_after H K sk_empty calls)) w = Ok sw -> status calls w <> None;
  pa_named : stock_named (stock_after H K sk_empty calls);
  (** the transaction of the payment is not archived *)
  pa_live : exists o, r (fascia_witness_id f) = Some o /\ o <> Archived;
  pa_new : new_bundles H (stock_after H K sk_empty calls) f;
  pa_moves : exists id t, moved f cid id t;
  pa_spends : spends_from (stock_after H K sk_empty calls) f cid prev;
  pa_history : in_contract (stock_after H K sk_empty calls) cid prev None
}.
End Paid.
