(** * What an exported consignment has to contain: specification for C34-C36 *)
From Verif Require Import Base StM Core ContainerModel ContainerSpec PIndexModel PIndexSpec StateModel StateSpec StashModel StashSpec StockModel StockAgain.

(** The stock has transition [t] under the id [id], in the bundle [bid]. *)
Definition known_in (s : Stock) (id bid : N) (t : Operation) : Prop :=
  states (sk_index s) (FOp id bid) /\
  exists b, mget bid (st_bundles (sk_stash s)) = Some b /\ mget id (b_known b) = Some t.
Definition known_op (s : Stock) (id : N) (t : Operation) : Prop := exists bid, known_in s id bid t.

(** An operation output asked for: it is assigned to one of the outputs of transactions or
    to the secret seal. *)
Definition requested (s : Stock) (cid : N) (outputs : list OutSeal) (secret : option N) (oo : Opout) : Prop :=
  (exists out o, In o outputs /\ os_outpoint out = os_outpoint o /\ states (sk_index s) (FOut cid out oo)) \/
  (exists x, secret = Some x /\ states (sk_index s) (FTerm x oo)).

(** The contract has no two seals, one per closing method, at one of the outputs. *)
Definition one_seal (s : Stock) (cid : N) (outputs : list OutSeal) : Prop :=
  forall out out' oo oo' o, states (sk_index s) (FOut cid out oo) -> states (sk_index s) (FOut cid out' oo') ->
    In o outputs -> os_outpoint out = os_outpoint o -> os_outpoint out = os_outpoint out' -> out = out'.

(** What an export takes as asked for: of two seals at one output, the one closed by opret *)
Definition found (s : Stock) (cid : N) (outputs : list OutSeal) (secret : option N) (oo : Opout) : Prop :=
  (exists out o, In o outputs /\ os_outpoint out = os_outpoint o /\ states (sk_index s) (FOut cid out oo) /\
     (os_method out = OpretFirst \/
      forall out' oo', states (sk_index s) (FOut cid out' oo') -> os_outpoint out' = os_outpoint o -> out' = out)) \/
  (exists x, secret = Some x /\ states (sk_index s) (FTerm x oo)).

(** The history: operations from given ones back to the genesis, without the genesis *)
Inductive reached (s : Stock) (cid : N) (start : N -> Prop) : N -> Prop :=
| reached_start id : start id -> id <> cid -> reached s cid start id
| reached_parent id t i : reached s cid start id -> known_op s id t -> In i (op_inputs t) -> oo_op i <> cid ->
    reached s cid start (oo_op i).

(** The history of what was asked for *)
Definition history_of (s : Stock) (cid : N) (outputs : list OutSeal) (secret : option N) : N -> Prop :=
  reached s cid (fun id => exists oo, requested s cid outputs secret oo /\ oo_op oo = id).

Definition found_history (s : Stock) (cid : N) (outputs : list OutSeal) (secret : option N) : N -> Prop :=
  reached s cid (fun id => exists oo, found s cid outputs secret oo /\ oo_op oo = id).

(** A consignment contains a transition. *)
Definition reveals_op (c : Consignment) (id : N) (t : Operation) : Prop :=
  exists w a b, holds c w a b /\ mget id (b_known b) = Some t.

(** Output number [no] of type [ty] of transition [t] is assigned to the secret seal [x],
    whether the transition shows the seal or not. *)
Definition assigned_to (H : Hashes) (t : Operation) (ty : N) (no : nat) (x : N) : Prop :=
  exists a, assigned t ty no a /\
    match a with
    | Confidential s _ | ConfidentialSeal s _ => x = s
    | ConfidentialState s _ | Revealed s _ => x = h_seal H s
    end.

(** Of the outputs asked for, one bundle has at most one assigned to the secret seal. *)
Definition one_terminal (H : Hashes) (s : Stock) (cid : N) (outputs : list OutSeal) (x : N) : Prop :=
  forall bid oo t ty no oo' t' ty' no',
    found s cid outputs (Some x) oo -> oo_op oo <> cid -> known_in s (oo_op oo) bid t -> assigned_to H t ty no x ->
    found s cid outputs (Some x) oo' -> oo_op oo' <> cid -> known_in s (oo_op oo') bid t' -> assigned_to H t' ty' no' x ->
    oo = oo' /\ ty = ty' /\ no = no'.

(** Nothing is its own ancestor. *)
Definition acyclic (s : Stock) : Prop :=
  exists rank : N -> nat, forall id t i, known_op s id t -> In i (op_inputs t) -> (rank (oo_op i) < rank id)%nat.

(** The stock has bundle [b] under [bid]; [w] is a witness of it which is not archived; the
    stash has an anchor for the closing method of the bundle in [w], and [a] is made of the
    proof that it commits to the contract of the bundle. *)
Definition anchored (K : Merkle) (s : Stock) (bid : N) (w : WitnessId) (a : EAnchor) (b : Bundle) : Prop :=
  mget bid (st_bundles (sk_stash s)) = Some b /\
  states (sk_index s) (FWitness bid w) /\ live (sk_state s) (Some w) /\
  exists cid sw an, states (sk_index s) (FBundle bid cid) /\ mget w (st_witnesses (sk_stash s)) = Some sw /\
    (match b_method b with TapretFirst => tapret_of (sw_anchors sw) | OpretFirst => opret_of (sw_anchors sw) end) = Some an /\
    mk_proof K (an_root an) (an_known an) cid = Some (ea_mpc a) /\
    ea_dbc a = {| dp_method := b_method b; dp_data := an_dbc an |}.

(** The stocks which are looked at: what calls make of an empty stock *)
Definition reachable {OG : OrdKey GlobalOut} (H : Hashes) (K : Merkle) (s : Stock) : Prop :=
  exists l, (forall c, In c l -> stock_call_ok H c) /\ s = stock_after H K sk_empty l.

(** What a consignment's signatures and annotations are about: its contract, schema,
    interfaces and implementations *)
Inductive subject_of (cid : N) (c : Consignment) : ContentId -> Prop :=
| so_contract : subject_of cid c (TagGenesis, cid)
| so_schema : subject_of cid c (TagSchema, op_ty (c_genesis c))
| so_iface i im : In (i, im) (c_ifaces c) -> subject_of cid c (TagIface, if_id i)
| so_impl i im : In (i, im) (c_ifaces c) -> subject_of cid c (TagIfaceImpl, im_id im).

(** The first annotation for a subject *)
Definition first_note (s : MemStash) (ct : ContentId) (x : SupplRec) : Prop :=
  exists more, mget ct (st_suppl s) = Some (x :: more).

(** The definitions of a consignment are those of the stash for the contract. *)
Record defined (s : MemStash) (cid : N) (c : Consignment) : Prop := {
  df_genesis : mget cid (st_geneses s) = Some (c_genesis c);
  df_schema : exists si, mget (op_ty (c_genesis c)) (st_schemata s) = Some si /\ c_schema c = si_schema si /\
    map snd (c_ifaces c) = mvals (si_impls si) /\ map (fun p => if_name (fst p)) (c_ifaces c) = mkeys (si_impls si);
  df_iface : forall i im, In (i, im) (c_ifaces c) -> In i (mvals (st_ifaces s));
  df_types : forall id, In id (sch_types (c_schema c)) \/ (exists i im, In (i, im) (c_ifaces c) /\ In id (if_types i)) ->
    exists t, mget id (st_types s) = Some t /\ mget id (c_types c) = Some t;
  df_types_only : forall id t, mget id (c_types c) = Some t -> mget id (st_types s) = Some t /\
    (In id (sch_types (c_schema c)) \/ exists i im, In (i, im) (c_ifaces c) /\ In id (if_types i));
  df_libs : forall id, In id (sch_libs (c_schema c)) -> exists l, mget id (st_libs s) = Some l /\ mget id (c_scripts c) = Some l;
  df_libs_only : forall id l, mget id (c_scripts c) = Some l -> mget id (st_libs s) = Some l /\ In id (sch_libs (c_schema c));
  df_sigs : forall ct x, mget ct (c_signatures c) = Some x <-> subject_of cid c ct /\ mget ct (st_sigs s) = Some x;
  df_suppl : forall x, In x (c_supplements c) <-> exists ct, subject_of cid c ct /\ first_note s ct x
}.

(** ** C36 *)

(** The Merkle proofs of multi-protocol commitments: a proof is given for whatever is
    known of a block (crate commit_verify, [MerkleBlock::to_merkle_proof]). *)
Definition proves_known (K : Merkle) : Prop :=
  forall root known cid, mget cid known <> None -> exists p, mk_proof K root known cid = Some p.

(** Bundle [b] of the consignment is new to the stock. *)
Definition new_bundle (s : Stock) (bid : N) : Prop :=
  mget bid (st_bundles (sk_stash s)) = None /\ forall w, ~ states (sk_index s) (FWitness bid w).

(** What the stock knows of the bundle does not stand in the way of operation [id]: if it has the
    bundle, then with the operation; the witnesses it knows of the bundle are those which
    the consignment has it under, or are archived. *)
Definition agreeable (H : Hashes) (s : Stock) (c : Consignment) (bid id : N) : Prop :=
  (forall b, mget bid (st_bundles (sk_stash s)) = Some b -> mget id (b_known b) <> None) /\
  forall w, states (sk_index s) (FWitness bid w) ->
    (exists a b, holds c w a b /\ bundle_id H b = bid) \/
    mget w (ms_witnesses (sk_state s)) = Some Archived /\ forall wb, In wb (c_bundles c) -> wb_id wb <> w.

(** Every copy of the bundle in the consignment reveals the operation and is under an
    anchor for its closing method. *)
Definition copies_reveal (H : Hashes) (c : Consignment) (bid id : N) : Prop :=
  forall w a b, holds c w a b -> bundle_id H b = bid ->
    mget id (b_known b) <> None /\ dp_method (ea_dbc a) = b_method b.

(** Commitments without cycles: the id of an operation commits to the ids of the operations
    whose outputs it spends, so none can be its own ancestor. *)
Definition no_cycles (H : Hashes) : Prop :=
  exists rank : N -> nat, forall t i, In i (op_inputs t) -> (rank (oo_op i) < rank (op_id H t))%nat.
