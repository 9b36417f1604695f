(** * What an index says: specification for C23-C26

    An index is a set of facts.  [states] reads them off the answers of an index,
    [announces] says which facts a call to the index is about, in terms of the
    consignment or bundle handed to it. *)
From Verif Require Import Base Core ContainerModel PIndexModel.

Inductive Fact :=
| FContract (cid : N)                           (* the contract is known *)
| FBundle (bid cid : N)                         (* the bundle is of the contract *)
| FWitness (bid : N) (w : WitnessId)            (* the bundle was seen with the witness *)
| FOp (opid bid : N)                            (* the operation is in the bundle *)
| FOut (cid : N) (out : OutSeal) (oo : Opout)   (* the output is assigned to the seal *)
| FTerm (secret : N) (oo : Opout).              (* the output is assigned to the secret seal *)

(** The facts an index contains *)
Definition states (s : MemIndex) (f : Fact) : Prop :=
  match f with
  | FContract cid => exists ci, mget cid (mi_contracts s) = Some ci
  | FBundle bid cid => mget bid (mi_bundle_contract s) = Some cid
  | FWitness bid w => exists ws, mget bid (mi_bundle_witness s) = Some ws /\ In w ws
  | FOp opid bid => mget opid (mi_op_bundle s) = Some bid
  | FOut cid out oo => exists ci set, mget cid (mi_contracts s) = Some ci /\
                         mget out (ci_outs ci) = Some set /\ In oo set
  | FTerm secret oo => exists set, mget secret (mi_terminals s) = Some set /\ In oo set
  end.

(** Output number [no] of type [ty] of an operation *)
Definition assigned (o : Operation) (ty : N) (no : nat) (a : Assign) : Prop :=
  exists ta, In (ty, ta) (op_assigns o) /\ nth_error (ta_list ta) no = Some a.

(** The seal of an assignment kept secret *)
Definition secret_of (a : Assign) : option N :=
  match a with
  | Confidential s _ | ConfidentialSeal s _ => Some s
  | ConfidentialState _ _ | Revealed _ _ => None
  end.

(** The output a revealed seal is defined on: for a seal on the witness transaction it is
    an output of the witness given, for others the one the seal names. *)
Definition seal_output (w : option WitnessId) (s : Seal) (out : OutSeal) : Prop :=
  os_method out = s_method s /\ os_vout out = s_vout s /\ os_layer out = s_layer s /\
  match s_txid s, w with
  | Some t, _ => os_txid out = t
  | None, Some w => os_txid out = w_txid w /\ w_layer w = s_layer s
  | None, None => False
  end.

(** What an operation known under id [opid] says about its outputs *)
Definition op_announces (cid opid : N) (w : option WitnessId) (o : Operation) (f : Fact) : Prop :=
  exists ty no a, assigned o ty no a /\
    let oo := {| oo_op := opid; oo_ty := ty; oo_no := N.of_nat no |} in
    ((exists s out, revealed_seal a = Some s /\ seal_output w s out /\ f = FOut cid out oo) \/
     (exists sec, secret_of a = Some sec /\ f = FTerm sec oo)).

Definition bundle_announces (H : Hashes) (cid : N) (b : Bundle) (w : WitnessId) (f : Fact) : Prop :=
  f = FBundle (bundle_id H b) cid \/ f = FWitness (bundle_id H b) w \/
  exists opid t, In (opid, t) (b_known b) /\
    (f = FOp opid (bundle_id H b) \/ op_announces cid opid (Some w) t f).

Definition consignment_announces (H : Hashes) (c : Consignment) (f : Fact) : Prop :=
  let cid := op_id H (c_genesis c) in
  f = FContract cid \/
  op_announces cid cid None (c_genesis c) f \/
  (exists e, In e (c_extensions c) /\ op_announces cid (op_id H e) None e f) \/
  (exists wb b, In wb (c_bundles c) /\ In b (anchored_bundles (wb_bundles wb)) /\
                bundle_announces H cid b (wb_id wb) f).

Definition announces (H : Hashes) (c : IndexCall) (f : Fact) : Prop :=
  match c with
  | IxConsignment c => consignment_announces H c f
  | IxBundle cid b w => bundle_announces H cid b w f
  end.

Definition is_term (f : Fact) : bool := match f with FTerm _ _ => true | _ => false end.

(** A call succeeded on a given index. *)
Definition succeeds (H : Hashes) (s : MemIndex) (c : IndexCall) : Prop :=
  exists s', index_call H c s = (s', Ok tt).

(** All calls of a history succeed, one after another. *)
Fixpoint all_succeed (H : Hashes) (s : MemIndex) (l : list IndexCall) : Prop :=
  match l with
  | [] => True
  | c :: l' => succeeds H s c /\ all_succeed H (fst (index_call H c s)) l'
  end.

(** The index after a history of calls starting from an empty one *)
Definition index_after (H : Hashes) (l : list IndexCall) : MemIndex := index_calls H l mi_empty.

(** No collection of the index is full. *)
Definition has_room (s : MemIndex) : Prop :=
  (len (mi_op_bundle s) < U24MAX)%N /\ (len (mi_bundle_contract s) < U24MAX)%N /\
  (len (mi_bundle_witness s) < U24MAX)%N /\ (len (mi_contracts s) < U8MAX)%N /\
  (len (mi_terminals s) < U24MAX)%N /\
  (forall bid ws, mget bid (mi_bundle_witness s) = Some ws -> (len ws < U8MAX)%N) /\
  (forall sec os, mget sec (mi_terminals s) = Some os -> (len os < U8MAX)%N) /\
  (forall cid ci, mget cid (mi_contracts s) = Some ci -> (len (ci_outs ci) < U24MAX)%N /\
     forall out os, mget out (ci_outs ci) = Some os -> (len os < U24MAX)%N).
