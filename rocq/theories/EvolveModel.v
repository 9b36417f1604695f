(** * The state a validation works on: [ContractStateEvolve] of src/persistence/memory.rs *)
From Verif Require Import Base StM Core ContainerModel PIndexModel StateModel.

(** rgb-core [OrdOpRef]: an operation with what publishes it and the status of that *)
Inductive OrdOp :=
| OOGenesis (g : Operation)
| OOTransition (t : Operation) (w : WitnessId) (ord : WitnessOrd)
| OOExtension (e : Operation) (w : WitnessId) (ord : WitnessOrd).

Section Evolve.
Context {OG : OrdKey GlobalOut}.

(** memory.rs 1032-1037 ([init]) *)
Definition mc_init (schema : SchemaRec) (cid : N) : MemContract :=
  {| mc_filter := []; mc_state := cs_new schema cid |}.

(** memory.rs 1039-1074 ([evolve_state]) through the writer of 1133-1177: the status of the
    witness replaces an earlier one, with no bound on the number of witnesses, then the
    operation is added.  The filter is a hash map in Rust, and only ever looked up in; it is
    modelled as an ordered one.  The branch for [MemError::Persistence] is not reachable:
    neither step fails, see [C66_never_refuses]. *)
Definition evolve_state (H : Hashes) (c : MemContract) (op : OrdOp) : result StateError MemContract :=
  match op with
  | OOGenesis g =>
      let! cs := add_operation H (mc_state c) OWGenesis g in
      Ok {| mc_filter := mc_filter c; mc_state := cs |}
  | OOTransition t w ord =>
      let! cs := add_operation H (mc_state c) (OWTransition w (op_ty t)) t in
      Ok {| mc_filter := minsert w ord (mc_filter c); mc_state := cs |}
  | OOExtension e w ord =>
      let! cs := add_operation H (mc_state c) (OWExtension w (op_ty e)) e in
      Ok {| mc_filter := minsert w ord (mc_filter c); mc_state := cs |}
  end.

(** One call after the other, as the validator of rgb-core does it; the order in which it
    does is not part of this code base and left open. *)
Definition evolve_all (H : Hashes) (c : MemContract) (l : list OrdOp) : result StateError MemContract :=
  rfold (evolve_state H) c l.
End Evolve.
