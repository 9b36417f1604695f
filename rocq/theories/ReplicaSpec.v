(** * Two stocks to which the same was brought in another order: specification for C76 *)
From Verif Require Import Base StM Core ContainerModel ContainerSpec PIndexModel StashModel StockModel ConsignModel.
Local Open Scope N_scope.

(** The bundle is in what one of the calls brings. *)
Definition brings_bundle (calls : list StockCall) (b : Bundle) : Prop :=
  (exists c r wb, In (SkAccept c r) calls /\ In wb (c_bundles c) /\ In b (anchored_bundles (wb_bundles wb))) \/
  (exists f r cid, In (SkFascia f r) calls /\ In (cid, b) (fascia_bundles f)).

(** Whenever a bundle is brought, it comes with the same of its transitions; these may be
    concealed to different degrees. *)
Definition same_parts (H : Hashes) (calls : list StockCall) : Prop :=
  forall b b' id, brings_bundle calls b -> brings_bundle calls b' -> bundle_id H b = bundle_id H b' ->
    mget id (b_known b) <> None -> mget id (b_known b') <> None.

(** The stocks have the same geneses, extensions and bundles. *)
Definition same_history (s s' : Stock) : Prop :=
  (forall cid, stash_genesis (sk_stash s) cid = stash_genesis (sk_stash s') cid) /\
  (forall id, stash_extension (sk_stash s) id = stash_extension (sk_stash s') id) /\
  (forall id, stash_bundle (sk_stash s) id = stash_bundle (sk_stash s') id).

(** The stocks find the same contracts, operations, bundles and witnesses. *)
Definition finds_same (s s' : Stock) : Prop :=
  let i := sk_index s in let i' := sk_index s' in
  (forall outputs, contracts_assigning i outputs = contracts_assigning i' outputs) /\
  (forall cid, public_opouts i cid = public_opouts i' cid) /\
  (forall cid outputs, opouts_by_outputs i cid outputs = opouts_by_outputs i' cid outputs) /\
  (forall terminals, opouts_by_terminals i terminals = opouts_by_terminals i' terminals) /\
  (forall id, bundle_id_for_op i id = bundle_id_for_op i' id) /\
  (forall bid, bundle_info i bid = bundle_info i' bid).

(** ** Witnesses *)

(** The public witness is in what one of the calls brings. *)
Definition brings_tx (calls : list StockCall) (p : XPubWitness) : Prop :=
  (exists c r wb, In (SkAccept c r) calls /\ In wb (c_bundles c) /\ p = wb_witness wb) \/
  (exists f r, In (SkFascia f r) calls /\ p = fa_witness f).
(** Transactions with the same id are the same: an id does not commit to all of the data. *)
Definition same_txs (calls : list StockCall) : Prop :=
  forall p p', brings_tx calls p -> brings_tx calls p' -> witness_id p = witness_id p' ->
    pw_tx (xw_pub p) <> None -> pw_tx (xw_pub p') <> None -> p = p'.

(** One of the calls says that the witness commits to the bundle for the contract. *)
Definition brings_message (H : Hashes) (calls : list StockCall) (w : WitnessId) (m : CloseMethod) (cid bid : N) : Prop :=
  (exists c r a b, In (SkAccept c r) calls /\ holds c w a b /\ m = dp_method (ea_dbc a) /\ cid = op_id H (c_genesis c) /\ bid = bundle_id H b) \/
  (exists f r an, In (SkFascia f r) calls /\ fascia_witness_id f = w /\
     match m with TapretFirst => tapret_of (fa_anchor f) | OpretFirst => opret_of (fa_anchor f) end = Some an /\ mget cid (an_known an) = Some bid).
(** A witness commits to one bundle of a contract per method, which the proofs of commitments
    guarantee. *)
Definition one_message (H : Hashes) (calls : list StockCall) : Prop :=
  forall w m cid bid bid', brings_message H calls w m cid bid -> brings_message H calls w m cid bid' -> bid = bid'.

(** The stocks have the same witnesses: transactions and anchors. *)
Definition same_witnesses (s s' : Stock) : Prop :=
  forall w, stash_witness (sk_stash s) w = stash_witness (sk_stash s') w.

(** ** Exports *)

(** The consignments say the same of the contract; what describes its schema and interfaces
    may differ. *)
Definition same_content (c c' : Consignment) : Prop :=
  c_transfer c = c_transfer c' /\ c_genesis c = c_genesis c' /\ c_extensions c = c_extensions c' /\
  c_bundles c = c_bundles c' /\ c_terminals c = c_terminals c'.
(** Whatever both can export is the same. *)
Definition same_exports (H : Hashes) (K : Merkle) (s s' : Stock) : Prop :=
  forall fuel transfer cid outputs secret c c',
    consign H K fuel s transfer cid outputs secret = Some (Ok c) ->
    consign H K fuel s' transfer cid outputs secret = Some (Ok c') -> same_content c c'.
