(** * What the state of contracts has to be: specification for C26-C31 *)
From Verif Require Import Base StM Core ContainerModel PIndexModel PIndexSpec StateModel.
Local Open Scope N_scope.

(** ** What was imported *)

(** Operation [o] spends an output of operation [opid]. *)
Definition spends_op (t : Operation) (opid : N) : Prop :=
  exists i, In i (op_inputs t) /\ oo_op i = opid.

(** [w] is the witness of the first witness bundle of the consignment with a transition
    spending an output of the operation. *)
Definition first_spent (c : Consignment) (opid : N) (w : WitnessId) : Prop :=
  exists before wb after, c_bundles c = before ++ wb :: after /\ wb_id wb = w /\
    (exists t, In t (wb_known_transitions wb) /\ spends_op t opid) /\
    (forall wb' t, In wb' before -> In t (wb_known_transitions wb') -> ~ spends_op t opid).

(** A call is about operation [o] of contract [cid], published by [ow]. *)
Definition imports (H : Hashes) (call : StateCall) (cid : N) (ow : OpWitness) (o : Operation) : Prop :=
  match call with
  | StConsignment c _ =>
      cid = op_id H (c_genesis c) /\
      ((ow = OWGenesis /\ o = c_genesis c) \/
       (exists wb, In wb (c_bundles c) /\ In o (wb_known_transitions wb) /\
                   ow = OWTransition (wb_id wb) (op_ty o)) \/
       (exists w, In o (c_extensions c) /\ first_spent c (op_id H o) w /\
                  ow = OWExtension w (op_ty o)))
  | StBundle cid' b w _ =>
      cid = cid' /\ In o (mvals (b_known b)) /\ ow = OWTransition w (op_ty o)
  | StUpdate _ _ => False
  end.

(** An allocation [a] of kind [k] is one of the outputs of [o] with both seal and state
    revealed. *)
Definition reveals (H : Hashes) (o : Operation) (ow : OpWitness) (k : StateKind) (a : OutAssign) : Prop :=
  exists ty ta no seal st,
    In (ty, ta) (op_assigns o) /\ ta_kind ta = k /\
    nth_error (ta_list ta) no = Some (Revealed seal st) /\
    seal_output (op_witness ow) seal (oa_seal a) /\
    oa_opout a = {| oo_op := op_id H o; oo_ty := ty; oo_no := N.of_nat no |} /\
    oa_state a = st /\ oa_witness a = op_witness ow.

(** Value [d] at position [go] is one of the global state values of type [ty] of [o]. *)
Definition shows (H : Hashes) (o : Operation) (ow : OpWitness) (ty : N) (go : GlobalOut) (d : N) : Prop :=
  exists vals no, In (ty, vals) (op_globals o) /\ nth_error vals no = Some d /\
    go = {| go_op := op_id H o; go_nonce := op_nonce o; go_index := N.of_nat no; go_witness := ow |}.

(** ** The state as a set of facts *)

Inductive SFact :=
| SFContract (cid : N)
| SFLimit (cid ty limit : N)
| SFOut (cid : N) (k : StateKind) (a : OutAssign)
| SFGlobal (cid ty : N) (go : GlobalOut) (d : N).

(** What a call is about *)
Definition sannounces (H : Hashes) (call : StateCall) (f : SFact) : Prop :=
  match f with
  | SFContract cid => exists c r, call = StConsignment c r /\ cid = op_id H (c_genesis c)
  | SFLimit cid ty limit =>
      exists c r, call = StConsignment c r /\ cid = op_id H (c_genesis c) /\
                  In (ty, limit) (sch_globals (c_schema c))
  | SFOut cid k a => exists ow o, imports H call cid ow o /\ reveals H o ow k a
  | SFGlobal cid ty go d => exists ow o, imports H call cid ow o /\ shows H o ow ty go d
  end.

Section Facts.
Context {OG : OrdKey GlobalOut}.

(** What is stored *)
Definition sstates (s : MemState) (f : SFact) : Prop :=
  match f with
  | SFContract cid => exists cs, mget cid (ms_contracts s) = Some cs
  | SFLimit cid ty limit => exists cs g, mget cid (ms_contracts s) = Some cs /\
      mget ty (cs_global cs) = Some g /\ mg_limit g = limit
  | SFOut cid k a => exists cs, mget cid (ms_contracts s) = Some cs /\
      mget (oa_opout a, oa_seal a) (cs_outs k cs) = Some (oa_state a, oa_witness a)
  | SFGlobal cid ty go d => exists cs g, mget cid (ms_contracts s) = Some cs /\
      mget ty (cs_global cs) = Some g /\ mget go (mg_known g) = Some d
  end.

(** A call succeeded on a given state; all calls of a history do. *)
Definition ssucceeds (H : Hashes) (s : MemState) (c : StateCall) : Prop :=
  exists s', state_call H c s = (s', Ok tt).
Fixpoint sall_succeed (H : Hashes) (s : MemState) (l : list StateCall) : Prop :=
  match l with
  | [] => True
  | c :: l' => ssucceeds H s c /\ sall_succeed H (fst (state_call H c s)) l'
  end.

Definition state_after (H : Hashes) (l : list StateCall) : MemState := state_calls H l ms_empty.

(** No collection is full. *)
Definition shas_room (s : MemState) : Prop :=
  len (ms_witnesses s) < U32MAX /\ len (ms_contracts s) < U8MAX /\
  (forall cid cs, mget cid (ms_contracts s) = Some cs ->
     (forall k, len (cs_outs k cs) < U32MAX) /\
     (forall ty g, mget ty (cs_global cs) = Some g -> len (mg_known g) < U32MAX)).
End Facts.

(** An operation with no witness, or with one whose last known status is not "archived" *)
Definition live (s : MemState) (w : option WitnessId) : Prop :=
  match w with
  | None => True
  | Some w => exists ord, mget w (ms_witnesses s) = Some ord /\ ord <> Archived
  end.

(** Same key *)
Definition same_out (a b : OutAssign) : Prop := oa_opout a = oa_opout b /\ oa_seal a = oa_seal b.

(** The fields of operations are maps in order. *)
Definition op_sorted (o : Operation) : Prop := msorted (op_assigns o) /\ msorted (op_globals o).

Definition history_sorted (H : Hashes) (l : list StateCall) : Prop :=
  forall c cid ow o, In c l -> imports H c cid ow o -> op_sorted o.

(** Each operation is imported under one witness, or all its revealed seals are outputs of
    the witness transaction itself. *)
Definition one_witness (H : Hashes) (l : list StateCall) : Prop :=
  forall c c' cid ow ow' o o', In c l -> In c' l -> imports H c cid ow o -> imports H c' cid ow' o' ->
    op_id H o = op_id H o' ->
    op_witness ow = op_witness ow' \/
    (forall ty ta no seal st, In (ty, ta) (op_assigns o) ->
       nth_error (ta_list ta) no = Some (Revealed seal st) -> s_txid seal = None).

(** Global state: the position of a value together with the status of its witness *)
Definition placed (s : MemState) (go : GlobalOut) (ord : GlobalOrd) : Prop :=
  match go_witness go with
  | OWGenesis => ord = GOGenesis (go_index go)
  | OWTransition w ty => exists o, mget w (ms_witnesses s) = Some o /\
      ord = GOTransition (go_op go) (go_index go) ty (go_nonce go) o
  | OWExtension w ty => exists o, mget w (ms_witnesses s) = Some o /\
      ord = GOExtension (go_op go) (go_index go) ty (go_nonce go) o
  end.

(** The witnesses whose status a call looks up *)
Definition touches (c : StateCall) (w : WitnessId) : Prop :=
  match c with
  | StConsignment c _ => exists wb, In wb (c_bundles c) /\ wb_known_transitions wb <> [] /\ wb_id wb = w
  | StBundle _ b w' _ => b_known b <> [] /\ w = w'
  | StUpdate _ _ => False
  end.

(** A witness is due for an update after a height. *)
Definition due (after : N) (ord : WitnessOrd) : Prop :=
  match ord with Mined height _ => N.max 1 after <= height | _ => True end.
