(** * When a payment can be made: specification for C84 *)
From Verif Require Import Base Core InvoiceModel SupplModel ContainerModel PIndexModel StateModel StashModel StockModel IfaceModel BuilderModel BuilderSpec
  ConsignModel ComposeModel ComposeSpec.
Local Open Scope N_scope.

(** State which fits the schema of its contract: the type is known there with this kind of
    state, and amounts have the tag which the contract gave to the type ([tags0]).  This is so
    for all state which was validated. *)
Definition in_schema (X : BuildCtx) (tags0 : list (N * N)) (x : Inp) : Prop :=
  (exists os, mget (in_ty x) (fs_owned (bc_schema X)) = Some os /\ kind_fits_schema (kind_of (in_state x)) os) /\
  (forall v b tag, in_state x = RAmount v b tag -> latest tags0 (in_ty x) = Some tag).

(** The payer names an output for an input which has to be moved *)
Definition placed (ch : Choices) (u : Inp -> Use) (cid : N) (vel : N -> VelocityHint) (x : Inp) : Prop :=
  ch_alloc ch (u x) cid (in_ty x) (vel (in_ty x)) <> None.

(** A transition has at most 255 inputs; there is one for each closing method *)
Definition inputs_fit (l : list Inp) : Prop := forall m, len (with_method m l) <= 255.

(** The other contracts which have state on the outputs *)
Definition beside (s : Stock) (cid : N) (prev : list OutSeal) (id : N) : Prop :=
  In id (contracts_assigning (sk_index s) (sfrom (map os_outpoint prev))) /\ id <> cid.

(** ** What the stock has to know *)

(** The contract of the invoice: its builder can be had, and its state fits the schema.  [l] is
    its state on the outputs. *)
Definition ready (D : Defs) (s : Stock) (inv : RgbInvoice) (prev : list OutSeal) (cid tt a : N) (l : list Inp) : Prop :=
  asks D s inv cid tt a /\ spent s cid prev l /\ total a l <= U64MAX /\
  exists iface X b g, InvoiceModel.iface inv = Some iface /\ stash_genesis (sk_stash s) cid = Ok g /\
    transition_builder D (sk_stash s) cid (df_name D iface) (option_map (df_name D) (InvoiceModel.operation inv)) = Ok (X, b) /\
    (forall x, In x l -> in_schema X (df_tags D g) x).

(** Another contract: the same with the builder of blank transitions *)
Definition ready_beside (D : Defs) (s : Stock) (inv : RgbInvoice) (prev : list OutSeal) (id : N) (l : list Inp) : Prop :=
  spent s id prev l /\ (exists c, contract_state (sk_state s) id = Ok c) /\
  exists iface X b g, InvoiceModel.iface inv = Some iface /\ stash_genesis (sk_stash s) id = Ok g /\
    blank_builder D (sk_stash s) id (df_name D iface) = Ok (X, b) /\
    (forall x, In x l -> in_schema X (df_tags D g) x).

(** Hash maps list what they have, schemata have at most 255 types, and blindings can always be
    balanced. *)
Definition sane (D : Defs) (P : Pedersen) (od : Orders) : Prop :=
  orders_ok od /\ schemata_small D /\ forall i o, pd_balance P i o <> None.

(** ** What the payer has to have *)
Record payable (D : Defs) (s : Stock) (ch : Choices) (inv : RgbInvoice) (prev : list OutSeal) (vout : option N) (now : Z)
  (cid a : N) (l : list Inp) : Prop := {
  pa_time : match expiry inv with Some t => (now <= t)%Z | None => True end;
  (* an output for the beneficiary, when and only when they left it to the payer *)
  pa_vout : match xcn_into_inner (beneficiary inv) with BlindedSeal _ => vout = None | WitnessVout _ => vout <> None end;
  (* enough of the state, and an output for the change of an amount *)
  pa_enough : match owned_state inv with
              | ISAmount amt => amt <= total a l /\ ch_alloc ch UChange cid a (velocity_for D s cid a) <> None
              | ISData al => In (df_alloc D al) (data_in a l)
              | _ => False
              end;
  pa_some : l <> [];
  pa_fit : inputs_fit l;
  (* outputs for all other state *)
  pa_placed : forall x, In x l -> in_ty x <> a -> placed ch use_main cid (velocity_for D s cid) x;
  (* the same for the other contracts *)
  pa_beside : forall id l', beside s cid prev id -> spent s id prev l' ->
    l' <> [] /\ inputs_fit l' /\ forall x, In x l' -> placed ch use_blank id (velocity_for D s id) x;
  pa_number : forall ids, NoDup ids -> (forall id, In id ids -> beside s cid prev id) -> len ids <= 16777214
}.

(** ** Why a payment is refused *)

(** A contract with state on the outputs: that of the invoice, or another one *)
Definition concerned (s : Stock) (inv : RgbInvoice) (prev : list OutSeal) (id : N) : Prop :=
  exists cid, InvoiceModel.contract inv = Some cid /\ (id = cid \/ beside s cid prev id).
(** State of a contract on the outputs *)
Definition there (s : Stock) (prev : list OutSeal) (id : N) (x : Inp) : Prop :=
  owns s id x /\ In (os_outpoint (in_seal x)) (map os_outpoint prev).
(** The builder for the invoice *)
Definition invoice_builder (D : Defs) (s : Stock) (inv : RgbInvoice) (cid : N) (r : result ComposeError (BuildCtx * TrBuilder)) : Prop :=
  exists iface, InvoiceModel.contract inv = Some cid /\ InvoiceModel.iface inv = Some iface /\
    r = transition_builder D (sk_stash s) cid (df_name D iface) (option_map (df_name D) (InvoiceModel.operation inv)).

(** Calls on a builder which spend an input or put it back, and those which pay *)
Definition about (x : Inp) (c : TCall) : Prop :=
  c = TInput (in_out x) (in_state x) \/ exists seal st, c = TOwnedRaw (in_ty x) seal st /\ unblind st = unblind (in_state x).
Definition pays (a : N) (c : TCall) : Prop := exists seal v r, c = TFungibleRaw a seal v r \/ c = TDataRaw a seal v r.

(** What has to be known to make a builder for a contract and an interface: the genesis, its
    schema, the interface, an implementation of it - of [any] interface for other contracts -
    and the types and libraries which they need. *)
Inductive unknown (any : bool) (s : MemStash) (cid iface : N) : ComposeError -> Prop :=
| un_genesis e : stash_genesis s cid = Err e -> unknown any s cid iface (CoStash e)
| un_schema g e : stash_genesis s cid = Ok g -> stash_schema s (op_ty g) = Err e -> unknown any s cid iface (CoStash e)
| un_iface e : iface_by_name s iface = Err e -> unknown any s cid iface (CoStash e)
| un_impl g si i : stash_genesis s cid = Ok g -> stash_schema s (op_ty g) = Ok si -> iface_by_name s iface = Ok i ->
    (if any then si_impls si = [] else impl_get si (if_id i) = None) -> unknown any s cid iface (NoIfaceImpl (sch_id (si_schema si)) (if_id i))
| un_other g si i k im r e : any = true -> stash_genesis s cid = Ok g -> stash_schema s (op_ty g) = Ok si -> iface_by_name s iface = Ok i ->
    impl_get si (if_id i) = None -> si_impls si = (k, im) :: r -> iface_by_name s k = Err e -> unknown any s cid iface (CoStash e)
| un_type g si i id : stash_genesis s cid = Ok g -> stash_schema s (op_ty g) = Ok si -> iface_by_name s iface = Ok i ->
    In id (sch_types (si_schema si)) \/ In id (if_types i) -> mget id (st_types s) = None -> unknown any s cid iface (CoExtract (TypeAbsent id))
| un_lib g si id e : stash_genesis s cid = Ok g -> stash_schema s (op_ty g) = Ok si ->
    In id (sch_libs (si_schema si)) -> stash_lib s id = Err e -> unknown any s cid iface (CoExtract (CsStash e))
| un_libs g si ids : stash_genesis s cid = Ok g -> stash_schema s (op_ty g) = Ok si ->
    NoDup ids -> (forall id, In id ids -> In id (sch_libs (si_schema si))) -> 255 < len ids -> unknown any s cid iface (CoExtract (TooManyLibs (sch_id (si_schema si)))).

Inductive refusal (D : Defs) (wrap : bool) (s : Stock) (ch : Choices) (inv : RgbInvoice) (prev : list OutSeal) (vout : option N) (now : Z) : ComposeError -> Prop :=
| rf_expired t : expiry inv = Some t -> (t < now)%Z -> refusal D wrap s ch inv prev vout now InvoiceExpired
| rf_contract : InvoiceModel.contract inv = None -> refusal D wrap s ch inv prev vout now NoContract
| rf_iface : InvoiceModel.iface inv = None -> refusal D wrap s ch inv prev vout now NoIface
| rf_builder cid iface e : (* something about the contract is not known *)
    InvoiceModel.contract inv = Some cid -> InvoiceModel.iface inv = Some iface -> unknown false (sk_stash s) cid (df_name D iface) e -> refusal D wrap s ch inv prev vout now e
| rf_default cid X b : (* no state is named, and the operation has no default *)
    invoice_builder D s inv cid (Ok (X, b)) -> InvoiceModel.assignment inv = None -> (forall name, ~ default_named X (tb_type b) name) ->
    refusal D wrap s ch inv prev vout now (CoBuilder NoDefaultAssignment)
| rf_named cid X b name : (* the state which is named, or the default, has no type *)
    invoice_builder D s inv cid (Ok (X, b)) ->
    match InvoiceModel.assignment inv with Some n => name = df_name D n | None => default_named X (tb_type b) name end ->
    (forall ty, ~ assignment_named X name ty) -> refusal D wrap s ch inv prev vout now (CoBuilder (InvalidStateField name))
| rf_vout x : xcn_into_inner (beneficiary inv) = BlindedSeal x -> vout <> None -> refusal D wrap s ch inv prev vout now BeneficiaryVout
| rf_no_vout p : xcn_into_inner (beneficiary inv) = WitnessVout p -> vout = None -> refusal D wrap s ch inv prev vout now NoBeneficiaryOutput
| rf_state id e : (* the stock has no state of a contract *)
    concerned s inv prev id -> contract_state (sk_state s) id = Err e -> refusal D wrap s ch inv prev vout now (CoState e)
| rf_place_main cid x : (* no output for an input of the contract *)
    InvoiceModel.contract inv = Some cid -> there s prev cid x -> ~ placed ch use_main cid (velocity_for D s cid) x ->
    refusal D wrap s ch inv prev vout now (NoBlankOrChange (velocity_for D s cid (in_ty x)) (in_ty x))
| rf_place_blank cid id x : (* or of another one *)
    InvoiceModel.contract inv = Some cid -> beside s cid prev id -> there s prev id x -> ~ placed ch use_blank id (velocity_for D s id) x ->
    refusal D wrap s ch inv prev vout now (NoBlankOrChange (velocity_for D s id (in_ty x)) (in_ty x))
| rf_change cid tt a amt : (* no output for the change *)
    asks D s inv cid tt a -> owned_state inv = ISAmount amt -> ch_alloc ch UChange cid a (velocity_for D s cid a) = None ->
    refusal D wrap s ch inv prev vout now (NoBlankOrChange (velocity_for D s cid a) a)
| rf_little cid tt a : (* too little of the state, or none at all *)
    asks D s inv cid tt a ->
    (forall l, spent s cid prev l -> no_wrap wrap a l ->
       l = [] \/ match owned_state inv with ISAmount amt => total a l < amt | ISData al => ~ In (df_alloc D al) (data_in a l) | _ => False end) ->
    refusal D wrap s ch inv prev vout now InsufficientState
| rf_item cid X b0 b c e : (* state of the contract does not fit into the operation: see C83 *)
    invoice_builder D s inv cid (Ok (X, b0)) ->
    ((exists x, there s prev cid x /\ about x c) \/ (exists tt a, asks D s inv cid tt a /\ pays a c)) ->
    t_call X b c = Err e -> refusal D wrap s ch inv prev vout now (CoBuilder e)
| rf_item_beside cid id iface X b0 b c x e : (* or state of another contract *)
    InvoiceModel.contract inv = Some cid -> beside s cid prev id -> InvoiceModel.iface inv = Some iface ->
    blank_builder D (sk_stash s) id (df_name D iface) = Ok (X, b0) -> there s prev id x -> about x c ->
    t_call X b c = Err e -> refusal D wrap s ch inv prev vout now (CoBuilder e)
| rf_beside cid id iface e : (* something about another contract is not known *)
    InvoiceModel.contract inv = Some cid -> beside s cid prev id -> InvoiceModel.iface inv = Some iface ->
    unknown true (sk_stash s) id (df_name D iface) e -> refusal D wrap s ch inv prev vout now e
| rf_blanks cid ids : (* too many other contracts *)
    InvoiceModel.contract inv = Some cid -> NoDup ids -> (forall id, In id ids -> beside s cid prev id) -> 16777214 < len ids ->
    refusal D wrap s ch inv prev vout now TooManyBlanks
| rf_inputs : 16777215 < len prev -> refusal D wrap s ch inv prev vout now TooManyInputs.
