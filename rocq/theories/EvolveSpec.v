(** * What evolving a state has to give: specification for C66 *)
From Verif Require Import Base StM Core ContainerModel PIndexModel PIndexSpec StateModel StateSpec EvolveModel.
Local Open Scope N_scope.

(** The operation, what publishes it, and the status that has *)
Definition oo_operation (x : OrdOp) : Operation :=
  match x with OOGenesis o | OOTransition o _ _ | OOExtension o _ _ => o end.
Definition oo_pub (x : OrdOp) : OpWitness :=
  match x with
  | OOGenesis _ => OWGenesis
  | OOTransition t w _ => OWTransition w (op_ty t)
  | OOExtension e w _ => OWExtension w (op_ty e)
  end.
Definition oo_status (x : OrdOp) : option (WitnessId * WitnessOrd) :=
  match x with OOGenesis _ => None | OOTransition _ w ord | OOExtension _ w ord => Some (w, ord) end.

(** Operations as they come: their fields are maps in order; *)
Definition ops_sorted (l : list OrdOp) : Prop := forall x, In x l -> op_sorted (oo_operation x).
(** an operation is given under one witness, or all its revealed seals are outputs of the
    witness transaction itself; *)
Definition ops_one_witness (H : Hashes) (l : list OrdOp) : Prop :=
  forall x y, In x l -> In y l -> op_id H (oo_operation x) = op_id H (oo_operation y) ->
    op_witness (oo_pub x) = op_witness (oo_pub y) \/
    (forall ty ta no seal st, In (ty, ta) (op_assigns (oo_operation x)) ->
       nth_error (ta_list ta) no = Some (Revealed seal st) -> s_txid seal = None).
(** and a witness with one status. *)
Definition ops_one_status (l : list OrdOp) : Prop :=
  forall x y w ord ord', In x l -> In y l -> oo_status x = Some (w, ord) -> oo_status y = Some (w, ord') ->
    ord = ord'.

(** The witness of an allocation was last given with a status which is not "archived". *)
Definition given_live (l : list OrdOp) (w : option WitnessId) : Prop :=
  match w with
  | None => True
  | Some w => exists x ord, In x l /\ oo_status x = Some (w, ord) /\ ord <> Archived
  end.

(** The operations a consignment carries, with the status a resolver gives to their
    witnesses.  An extension is published by the first witness spending one of its outputs. *)
Definition carried (H : Hashes) (c : Consignment) (r : Resolver) (x : OrdOp) : Prop :=
  match x with
  | OOGenesis g => g = c_genesis c
  | OOTransition t w ord => exists wb, In wb (c_bundles c) /\ In t (wb_known_transitions wb) /\
      w = wb_id wb /\ r w = Some ord
  | OOExtension e w ord => In e (c_extensions c) /\ first_spent c (op_id H e) w /\ r w = Some ord
  end.

(** An operation fits a schema: its global state is of declared types and its revealed
    seals are on known transactions. *)
Definition ord_op_fits (schema : SchemaRec) (x : OrdOp) : Prop :=
  (forall ty vals, In (ty, vals) (op_globals (oo_operation x)) ->
     exists limit, In (ty, limit) (sch_globals schema)) /\
  (forall ty ta no seal st, In (ty, ta) (op_assigns (oo_operation x)) ->
     nth_error (ta_list ta) no = Some (Revealed seal st) ->
     exists out, seal_output (op_witness (oo_pub x)) seal out).

(** How many allocations and global values an operation has *)
Definition op_size (o : Operation) : N :=
  list_sum (map (fun p => len (ta_list (snd p))) (op_assigns o)) +
  list_sum (map (fun p => len (snd p)) (op_globals o)).

(** Two readable states answer every question about a contract alike: its id and schema,
    allocations of each kind, allocations at an outpoint and global state. *)
Definition reads_alike (c c' : MemContract) : Prop :=
  cs_contract (mc_state c) = cs_contract (mc_state c') /\
  cs_schema (mc_state c) = cs_schema (mc_state c') /\
  (forall k, outs_all k c = outs_all k c') /\
  (forall k o ty, outs_at k c o ty = outs_at k c' o ty) /\
  (forall ty, global_values c ty = global_values c' ty).

(** Where a global state value of an operation stands in consensus order *)
Definition stands (x : OrdOp) (go : GlobalOut) (ord : GlobalOrd) : Prop :=
  match x with
  | OOGenesis _ => ord = GOGenesis (go_index go)
  | OOTransition t _ o => ord = GOTransition (go_op go) (go_index go) (op_ty t) (go_nonce go) o
  | OOExtension e _ o => ord = GOExtension (go_op go) (go_index go) (op_ty e) (go_nonce go) o
  end.
