(** * What filters, queries and the history of a contract have to be: specification for C46, C47 *)
From Verif Require Import Base Core ContainerModel PIndexModel StateModel StateSpec IfaceModel HistoryModel.
Local Open Scope N_scope.

(** ** Filters *)

(** What each filter accepts *)
Fixpoint accepts (f : Filter) (o : Outpoint) (w : option WitnessId) : Prop :=
  match f with
  | FIncludeAll => True
  | FExclude g => ~ accepts g o w
  | FRef g => accepts g o w
  | FOption None => True
  | FOption (Some g) => accepts g o w
  | FOutpoint o' => o = o'
  | FList l => In o l
  | FSet s => In o s
  | FMap m => exists v, In (o, v) m
  end.

(** ** Sides of a payment *)

Section Sides.
(** Which outpoints and which witnesses are ours, and the allocations of one kind of state *)
Context (fo fw : AFilter) (l : list OutAssign).
Definition ours (a : OutAssign) : Prop := fo (os_outpoint (oa_seal a)) (oa_witness a) = true.
Definition made (a : OutAssign) : Prop := fw (os_outpoint (oa_seal a)) (oa_witness a) = true.
(** Witness [w] is ours: it makes some allocation which the filter takes. *)
Definition our_payment (w : WitnessId) : Prop := exists a, In a l /\ oa_witness a = Some w /\ made a.

(** What an allocation is to us: issued to us, paid by us to others, paid to us by others.
    Our change, and what others pay to others, is none of these. *)
Definition issued (a : OutAssign) : Prop := oa_witness a = None /\ ours a.
Definition sent (w : WitnessId) (a : OutAssign) : Prop := oa_witness a = Some w /\ made a /\ ~ ours a.
Definition received (w : WitnessId) (a : OutAssign) : Prop := oa_witness a = Some w /\ ours a /\ ~ our_payment w.

Definition deals (d : Direction) (w : option WitnessId) (a : OutAssign) : Prop :=
  In a l /\
  match d, w with
  | Issued, None => issued a
  | Sent, Some w => sent w a
  | Received, Some w => received w a
  | _, _ => False
  end.
End Sides.

Definition witness_of (c : MemContract) (w : option WitnessId) (i : option WitnessInfo) : Prop :=
  match w with
  | None => i = None
  | Some w => exists o, mget w (mc_filter c) = Some o /\ i = Some {| wi_id := w; wi_ord := o |}
  end.

(** What is shown of the state of an allocation: the amount, the data or the attachment,
    without blindings, tags and salts *)
Definition shown (st : RState) (x : Allocated) : Prop :=
  match st with
  | RVoid => x = AlVoid
  | RAmount v _ _ => x = AlAmount v
  | RData v _ => x = AlData v
  | RAttach f _ => x = AlAttach f
  end.

(** What is given out for an allocation *)
Definition given (a : OutAssign) (x : Owned) : Prop :=
  ow_opout x = oa_opout a /\ ow_seal x = oa_seal a /\ shown (oa_state a) (ow_state x) /\ ow_witness x = oa_witness a.

(** The report of one allocation *)
Definition reports (c : MemContract) (d : Direction) (a : OutAssign) (op : ContractOp) : Prop :=
  co_direction op = d /\ co_ty op = oo_ty (oa_opout a) /\ co_opids op = [oo_op (oa_opout a)] /\
  shown (oa_state a) (co_state op) /\ co_to op = [oa_seal a] /\ witness_of c (oa_witness a) (co_witness op).

(** The amount in the state *)
Definition amount_of (a : OutAssign) : N := match oa_state a with RAmount v _ _ => v | _ => 0 end.

(** The report of all the allocations [g] of one direction and witness: their type, outputs and sum *)
Definition sums_up (c : MemContract) (d : Direction) (w : option WitnessId) (g : list OutAssign) (op : ContractOp) : Prop :=
  co_direction op = d /\ (forall a, In a g -> oo_ty (oa_opout a) = co_ty op) /\
  ssorted (co_opids op) /\ (forall i, In i (co_opids op) <-> exists a, In a g /\ oo_op (oa_opout a) = i) /\
  co_state op = AlAmount (N.min (list_sum (map amount_of g)) U64MAX) /\
  ssorted (co_to op) /\ (forall s, In s (co_to op) <-> exists a, In a g /\ oa_seal a = s) /\
  witness_of c w (co_witness op).

(** [g] lists what is [P], each once. *)
Definition lists {A} (g : list A) (P : A -> Prop) : Prop := NoDup g /\ forall a, In a g <-> P a.

(** Kind of the state of a fungible assignment and so on: the Rust type of [TypedAssigns] *)
Definition well_typed (H : Hashes) (h : list StateCall) : Prop :=
  forall call cid ow o ty ta no seal st, In call h -> imports H call cid ow o -> In (ty, ta) (op_assigns o) ->
    nth_error (ta_list ta) no = Some (Revealed seal st) -> kind_of st = ta_kind ta.
