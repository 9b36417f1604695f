(** * For what a consignment can be refused: specification for C86

    Accepting a consignment writes to the state, to the index and to the stash of a stock.
    For each of the three: how much room there is compared to what the consignment brings,
    and with what already known it can clash. *)
From Verif Require Import Base StM Core MergeSpec ContainerModel ContainerSpec PIndexModel PIndexSpec.
From Verif Require Import StateModel StashModel StashSpec StockModel.
Local Open Scope N_scope.

(** The contract a consignment is about *)
Definition contract_of (H : Hashes) (c : Consignment) : N := op_id H (c_genesis c).

(** How many elements of a list satisfy a test *)
Definition count {A} (f : A -> bool) (l : list A) : N := len (filter f l).

(** The elements of a collection which may be missing *)
Definition or_empty {A} (o : option (list A)) : list A := match o with Some l => l | None => [] end.

(** ** Seals *)

(** The seal says no output: it is on "the witness transaction", and there is none, or the
    one there is lives on another chain. *)
Definition no_output (w : option WitnessId) (s : Seal) : Prop := forall out, ~ seal_output w s out.

(** The operations of a consignment, with the witness they are published by: none for genesis
    and extensions *)
Inductive brings (c : Consignment) : option WitnessId -> Operation -> Prop :=
| brings_genesis : brings c None (c_genesis c)
| brings_extension e : In e (c_extensions c) -> brings c None e
| brings_transition wb b id t : In wb (c_bundles c) -> In b (anchored_bundles (wb_bundles wb)) ->
    In (id, t) (b_known b) -> brings c (Some (wb_id wb)) t.

(** An assignment shows a seal which says no output. *)
Definition seal_without_output (c : Consignment) : Prop :=
  exists w o ty no a s, brings c w o /\ assigned o ty no a /\ revealed_seal a = Some s /\ no_output w s.

(** ** The index *)

(** The facts a consignment announces to an index, one by one ([facts_spec] in AcceptProps.v
    says that these are those of PIndexSpec.v). *)
Definition out_facts (cid : N) (w : option WitnessId) (opid ty : N) (l : list Assign) : list Fact :=
  flat_map (fun p : nat * Assign =>
    match revealed_seal (snd p) with
    | Some s => match assign_output w s with Some out => [FOut cid out (opout opid ty (fst p))] | None => [] end
    | None => []
    end) (enumerate l).
Definition term_facts (opid ty : N) (l : list Assign) : list Fact :=
  flat_map (fun p : nat * Assign =>
    match secret_of (snd p) with Some sec => [FTerm sec (opout opid ty (fst p))] | None => [] end) (enumerate l).
Definition op_facts (cid opid : N) (w : option WitnessId) (o : Operation) : list Fact :=
  flat_map (fun p : N * TypedAssigns =>
    out_facts cid w opid (fst p) (ta_list (snd p)) ++ term_facts opid (fst p) (ta_list (snd p))) (op_assigns o).
Definition bundle_facts (H : Hashes) (cid : N) (b : Bundle) (w : WitnessId) : list Fact :=
  [FBundle (bundle_id H b) cid; FWitness (bundle_id H b) w] ++
  flat_map (fun p : N * Operation => [FOp (fst p) (bundle_id H b)] ++ op_facts cid (fst p) (Some w) (snd p)) (b_known b).
Definition facts (H : Hashes) (c : Consignment) : list Fact :=
  let cid := contract_of H c in
  op_facts cid cid None (c_genesis c) ++
  flat_map (fun e => op_facts cid (op_id H e) None e) (c_extensions c) ++
  flat_map (fun wb => flat_map (fun b => bundle_facts H cid b (wb_id wb)) (anchored_bundles (wb_bundles wb)))
           (c_bundles c).

Definition is_bundle (f : Fact) : bool := match f with FBundle _ _ => true | _ => false end.
Definition is_op (f : Fact) : bool := match f with FOp _ _ => true | _ => false end.
Definition is_out (f : Fact) : bool := match f with FOut _ _ _ => true | _ => false end.
Definition is_witness_of (bid : N) (f : Fact) : bool := match f with FWitness b _ => b =? bid | _ => false end.
Definition is_term_of (sec : N) (f : Fact) : bool := match f with FTerm x _ => x =? sec | _ => false end.
Definition is_out_at (out : OutSeal) (f : Fact) : bool := match f with FOut _ x _ => keqb x out | _ => false end.

(** The outputs an index has for a contract *)
Definition outs_known (s : MemIndex) (cid : N) : omap OutSeal (oset Opout) :=
  match mget cid (mi_contracts s) with Some ci => ci_outs ci | None => [] end.

(** The index has room for the facts: none of its collections, and none of the sets kept in
    them, would grow beyond its limit. *)
Record index_room (s : MemIndex) (cid : N) (l : list Fact) : Prop := {
  ir_contract : mget cid (mi_contracts s) = None -> len (mi_contracts s) < U8MAX;
  ir_op : len (mi_op_bundle s) + count is_op l <= U24MAX;
  ir_bundle : len (mi_bundle_contract s) + count is_bundle l <= U24MAX;
  ir_bundle' : len (mi_bundle_witness s) + count is_bundle l <= U24MAX;
  ir_term : len (mi_terminals s) + count is_term l <= U24MAX;
  ir_out : len (outs_known s cid) + count is_out l <= U24MAX;
  ir_witness : forall bid, len (or_empty (mget bid (mi_bundle_witness s))) + count (is_witness_of bid) l <= U8MAX;
  ir_secret : forall sec, len (or_empty (mget sec (mi_terminals s))) + count (is_term_of sec) l <= U8MAX;
  ir_seal : forall out, len (or_empty (mget out (outs_known s cid))) + count (is_out_at out) l <= U24MAX
}.

(** Why the index refuses *)
Definition index_refuses (H : Hashes) (s : MemIndex) (c : Consignment) (e : IndexError) : Prop :=
  let cid := contract_of H c in
  match e with
  | IndexFull => ~ index_room s cid (facts H c)
  | DistinctBundleContract bid alt cid' =>
      (* the bundle is known as one of another contract *)
      cid' = cid /\ alt <> cid /\ states s (FBundle bid alt) /\ consignment_announces H c (FBundle bid cid)
  | DistinctBundleOp opid alt bid =>
      (* the transition is known as one of another bundle, or is in two bundles of the consignment *)
      alt <> bid /\ (states s (FOp opid alt) \/ consignment_announces H c (FOp opid alt)) /\
      consignment_announces H c (FOp opid bid)
  | _ => False
  end.

(** ** The state *)

(** The operations which reach the state, as they are published; an extension does only if a
    transition of the consignment spends one of its outputs. *)
Definition published (H : Hashes) (c : Consignment) : list (OpWitness * Operation) :=
  (OWGenesis, c_genesis c) ::
  flat_map (fun wb => map (fun t => (OWTransition (wb_id wb) (op_ty t), t)) (wb_known_transitions wb)) (c_bundles c) ++
  flat_map (fun e => match extension_witness c (op_id H e) with
                     | Some w => [(OWExtension w (op_ty e), e)] | None => [] end) (c_extensions c).

Definition outputs_in (o : Operation) : N := list_sum (map (fun p : N * TypedAssigns => len (ta_list (snd p))) (op_assigns o)).
Definition globals_in (o : Operation) : N := list_sum (map (fun p : N * list N => len (snd p)) (op_globals o)).
Definition total {A} (f : A -> N) (l : list A) : N := list_sum (map f l).

Section State.
Context {OG : OrdKey GlobalOut}.

(** The global state types of the contract: those of the state if it has the contract, else
    those of the schema of the consignment *)
Definition declared (H : Hashes) (s : MemState) (c : Consignment) (ty : N) : Prop :=
  match mget (contract_of H c) (ms_contracts s) with
  | Some cs => exists g, mget ty (cs_global cs) = Some g
  | None => exists n, mget ty (sch_globals (c_schema c)) = Some n
  end.
Definition undeclared_global (H : Hashes) (s : MemState) (c : Consignment) : Prop :=
  exists x ty vals, In x (published H c) /\ In (ty, vals) (op_globals (snd x)) /\ ~ declared H s c ty.

Definition globals_known (s : MemState) (cid ty : N) : omap GlobalOut N :=
  match mget cid (ms_contracts s) with
  | Some cs => match mget ty (cs_global cs) with Some g => mg_known g | None => [] end
  | None => []
  end.
Definition outputs_known (s : MemState) (cid : N) (k : StateKind) : Outputs :=
  match mget cid (ms_contracts s) with Some cs => cs_outs k cs | None => [] end.

Record state_room (H : Hashes) (s : MemState) (c : Consignment) : Prop := {
  sr_contract : mget (contract_of H c) (ms_contracts s) = None -> len (ms_contracts s) < U8MAX;
  sr_witness : len (ms_witnesses s) + len (published H c) <= U32MAX;
  sr_global : forall ty, len (globals_known s (contract_of H c) ty) +
    total (fun x => globals_in (snd x)) (published H c) <= U32MAX;
  sr_out : forall k, len (outputs_known s (contract_of H c) k) +
    total (fun x => outputs_in (snd x)) (published H c) <= U32MAX
}.

Definition state_refuses (H : Hashes) (s : MemState) (c : Consignment) (r : Resolver) (e : StateError) : Prop :=
  match e with
  | StateFull => ~ state_room H s c
  | ResolverFailed w => r w = None /\ exists wb, In wb (c_bundles c) /\ wb_id wb = w
  | _ => False
  end.
End State.

(** ** The stash *)

(** The anchor of a method *)
Definition anchor_under (m : CloseMethod) (s : AnchorSet) : option Anchor :=
  match m with TapretFirst => tapret_of s | OpretFirst => opret_of s end.

Record stash_room (s : MemStash) (c : Consignment) : Prop := {
  hr_genesis : len (st_geneses s) < U8MAX;
  hr_extension : len (st_extensions s) + len (c_extensions c) <= U32MAX;
  hr_bundle : len (st_bundles s) + total (fun wb => len (anchored_bundles (wb_bundles wb))) (c_bundles c) <= U32MAX;
  hr_witness : len (st_witnesses s) + len (c_bundles c) <= U32MAX;
  hr_attachment : len (st_attachments s) + len (c_attachments c) <= U16MAX;
  hr_defs : room_for (kit_of c) s;
  hr_impl : forall id, len (match mget id (st_schemata s) with Some si => si_impls si | None => [] end) +
                       len (k_impls (kit_of c)) <= U8MAX;
  hr_suppl : len (st_suppl s) + len (c_supplements c) <= U8MAX;
  hr_suppls : forall x, len (or_empty (mget x (st_suppl s))) +
                        count (fun y => keqb (su_content y) x) (c_supplements c) <= U8MAX
}.

Definition stash_refuses (H : Hashes) (K : Merkle) (s : MemStash) (c : Consignment) (e : StashError) : Prop :=
  match e with
  | StashFull => ~ stash_room s c
  | StashMerkle =>
      (* the proof of an anchor does not hold the bundle *)
      exists w a b, holds c w a b /\ mk_with K (ea_mpc a) (contract_of H c) (bundle_id H b) = None
  | StashWitnessMerge e =>
      (* the whole transaction of the witness is known and the consignment has its id only *)
      exists wb old, In wb (c_bundles c) /\ mget (wb_id wb) (st_witnesses s) = Some old /\
        pw_tx (xw_pub (sw_public old)) <> None /\ pw_tx (xw_pub (wb_witness wb)) = None /\
        e = TxidMismatch (w_txid (wb_id wb)) (w_txid (wb_id wb))
  | StashAnchor e =>
      (* the witness is known with another anchor of the same method *)
      exists w a b old anc, holds c w a b /\ mget w (st_witnesses s) = Some old /\
        anchor_under (dp_method (ea_dbc a)) (sw_anchors old) = Some anc /\
        match e with
        | DbcMismatch => an_dbc anc <> dp_data (ea_dbc a)
        | UnrelatedProof => mk_with K (ea_mpc a) (contract_of H c) (bundle_id H b) <> Some (an_root anc)
        end
  | _ => False
  end.

(** Two bundles of one witness have anchors of one method. *)
Definition same_method (c : Consignment) : Prop :=
  exists wb t o, In wb (c_bundles c) /\ wb_bundles wb = ABDouble t o /\ dp_method (cb_dbc t) = dp_method (cb_dbc o).

(** ** The stock *)

Definition refused {OG : OrdKey GlobalOut} (H : Hashes) (K : Merkle) (r : Resolver) (s : Stock) (c : Consignment)
  (e : StockError) : Prop :=
  match e with
  | SkState e => state_refuses H (sk_state s) c r e
  | SkIndex e => index_refuses H (sk_index s) c e
  | SkStash e => stash_refuses H K (sk_stash s) c e
  | _ => False
  end.

(** The call panics *)
Definition breaks {OG : OrdKey GlobalOut} (H : Hashes) (s : Stock) (c : Consignment) : Prop :=
  seal_without_output c \/ undeclared_global H (sk_state s) c \/ ~ state_room H (sk_state s) c \/
  same_method c \/ ~ self_contained (kit_of c) (sk_stash s).

(** ** When a consignment is accepted *)

(** The consignment is in order by itself, its witnesses are known to the resolver and there
    is room for what it brings. *)
Record passes {OG : OrdKey GlobalOut} (H : Hashes) (K : Merkle) (r : Resolver) (s : Stock) (c : Consignment) : Prop := {
  pa_seals : ~ seal_without_output c;
  pa_globals : ~ undeclared_global H (sk_state s) c;
  pa_methods : ~ same_method c;
  pa_defs : self_contained (kit_of c) (sk_stash s);
  pa_resolved : forall wb, In wb (c_bundles c) -> r (wb_id wb) <> None;
  pa_proofs : forall w a b, holds c w a b -> mk_with K (ea_mpc a) (contract_of H c) (bundle_id H b) <> None;
  pa_state : state_room H (sk_state s) c;
  pa_index : index_room (sk_index s) (contract_of H c) (facts H c);
  pa_stash : stash_room (sk_stash s) c
}.

(** It agrees with what the stock has: its bundles are not known under other contracts, its
    transitions not in other bundles; witnesses known by their transactions come with them,
    and anchors known for them are the same. *)
Record agrees {OG : OrdKey GlobalOut} (H : Hashes) (K : Merkle) (s : Stock) (c : Consignment) : Prop := {
  ag_contract : forall bid alt, consignment_announces H c (FBundle bid (contract_of H c)) ->
    states (sk_index s) (FBundle bid alt) -> alt = contract_of H c;
  ag_bundle : forall opid bid alt, consignment_announces H c (FOp opid bid) ->
    states (sk_index s) (FOp opid alt) \/ consignment_announces H c (FOp opid alt) -> alt = bid;
  ag_tx : forall wb old, In wb (c_bundles c) -> mget (wb_id wb) (st_witnesses (sk_stash s)) = Some old ->
    pw_tx (xw_pub (sw_public old)) <> None -> pw_tx (xw_pub (wb_witness wb)) <> None;
  ag_anchor : forall w a b old anc, holds c w a b -> mget w (st_witnesses (sk_stash s)) = Some old ->
    anchor_under (dp_method (ea_dbc a)) (sw_anchors old) = Some anc ->
    an_dbc anc = dp_data (ea_dbc a) /\ mk_with K (ea_mpc a) (contract_of H c) (bundle_id H b) = Some (an_root anc)
}.
