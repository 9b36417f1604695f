(** * What the receiver of a transfer must see: specification for C62 *)
From Verif Require Import Base StM Core PIndexModel PIndexSpec StateModel StateSpec StockModel.

(** After a consignment was accepted with the resolver [r], the stock [s] shows output [oo] of
    an operation witnessed by [w], which is sealed by [x] and holds the state [st]:
    - the status of [w] is known, and it is the one given by the resolver;
    - the transaction output of the seal [x] is indexed as one with [oo] of the contract;
    - the state of the contract has an allocation of [st] to that transaction output, and it
      is reported among those of its kind exactly when its witness is not archived;
    - if the seal says nothing of its transaction, the witness of the allocation is [w], so the
      allocation is reported exactly when the resolver does not say that [w] is archived. *)
Definition receives {OG : OrdKey GlobalOut} (s : Stock) (r : Resolver) (cid : N) (k : StateKind) (oo : Opout)
    (x : Seal) (st : RState) (w : WitnessId) : Prop :=
  exists ord out a mc,
    r w = Some ord /\ mget w (ms_witnesses (sk_state s)) = Some ord /\
    seal_output (Some w) x out /\ states (sk_index s) (FOut cid out oo) /\
    oa_opout a = oo /\ oa_seal a = out /\ oa_state a = st /\
    contract_state (sk_state s) cid = Ok mc /\
    sstates (sk_state s) (SFOut cid k a) /\ (In a (outs_all k mc) <-> live (sk_state s) (oa_witness a)) /\
    (s_txid x = None -> oa_witness a = Some w /\ (In a (outs_all k mc) <-> ord <> Archived)).

(** The allocation [a] is one of an output of [t], of kind [k], with [w] as its witness. The seal
    of the output is shown by [t], or its hash is. *)
Definition pays (H : Hashes) (t : Operation) (k : StateKind) (w : WitnessId) (a : OutAssign) : Prop :=
  exists ty ta no x st, In (ty, ta) (op_assigns t) /\ ta_kind ta = k /\
    (nth_error (ta_list ta) no = Some (Revealed x st) \/ nth_error (ta_list ta) no = Some (ConfidentialSeal (h_seal H x) st)) /\
    seal_output (Some w) x (oa_seal a) /\
    oa_opout a = {| oo_op := op_id H t; oo_ty := ty; oo_no := N.of_nat no |} /\ oa_state a = st /\ oa_witness a = Some w.
