(** * What composing a payment means: specification for C37, C38 *)
From Verif Require Import Base Core InvoiceModel SupplModel ContainerModel PIndexModel StateModel StashModel StockModel IfaceModel BuilderModel BuilderSpec
  ComposeModel.
Local Open Scope N_scope.

(** ** The state which is spent *)

(** An input: the output seal, the assignment it holds, and its state *)
Definition Inp : Type := OutSeal * (Opout * RState).
Definition in_seal (x : Inp) : OutSeal := fst x.
Definition in_out (x : Inp) : Opout := fst (snd x).
Definition in_state (x : Inp) : RState := snd (snd x).
Definition in_ty (x : Inp) : N := oo_ty (in_out x).

(** The state of a contract as the stock knows it (C27 says what this is) *)
Definition owns (s : Stock) (cid : N) (x : Inp) : Prop :=
  exists c k w, contract_state (sk_state s) cid = Ok c /\
    In {| oa_opout := in_out x; oa_seal := in_seal x; oa_state := in_state x; oa_witness := w |} (outs_all k c).

(** [l] is all state of the contract on the given outputs, once each: no assignment is seen on
    two of them (as it would be with two witnesses of one transition). *)
Definition spent (s : Stock) (cid : N) (prev : list OutSeal) (l : list Inp) : Prop :=
  NoDup (map in_out l) /\
  forall x, In x l <-> owns s cid x /\ In (os_outpoint (in_seal x)) (map os_outpoint prev).

(** The total of the amounts of a type *)
Definition amount_in (ty : N) (x : Inp) : N :=
  if in_ty x =? ty then match in_state x with RAmount v _ _ => v | _ => 0 end else 0.
Definition total (ty : N) (l : list Inp) : N := list_sum (map (amount_in ty) l).
Definition with_method (m : CloseMethod) (l : list Inp) : list Inp := filter (fun x => keqb (os_method (in_seal x)) m) l.
Definition other_types (a : N) (l : list Inp) : list Inp := filter (fun x => negb (in_ty x =? a)) l.

(** The data of a type *)
Definition data_of (a : N) (x : Inp) : list N := if in_ty x =? a then match in_state x with RData v _ => [v] | _ => [] end else [].
Definition data_in (a : N) (l : list Inp) : list N := flat_map (data_of a) l.

(** ** What is made of it *)

(** The amounts of a type in a transition: all, and those of one seal.  Amounts which are
    concealed in the transition are not counted (there are none in composed ones). *)
Definition amount_out (ty : N) (p : N * Assign) : N :=
  if fst p =? ty then match revealed_state (snd p) with Some (RAmount v _ _) => v | _ => 0 end else 0.
Definition total_out (ty : N) (t : Operation) : N := list_sum (map (amount_out ty) (made t)).
Definition goes_to (seal : BSeal) (a : Assign) : bool :=
  match seal, a with
  | BRevealed s, (Revealed s' _ | ConfidentialState s' _) => keqb s s'
  | BConcealed c, (ConfidentialSeal c' _ | Confidential c' _) => c =? c'
  | _, _ => false
  end.
Definition paid_to (seal : BSeal) (ty : N) (t : Operation) : N :=
  list_sum (map (amount_out ty) (filter (fun p => goes_to seal (snd p)) (made t))).

(** An output which the payer has chosen *)
Definition payer_seal (ch : Choices) (method : CloseMethod) (layer : Layer1) (u : Use) (cid ty : N) (v : VelocityHint) (seal : BSeal) : Prop :=
  exists vout, ch_alloc ch u cid ty v = Some vout /\
    seal = BRevealed {| s_layer := layer; s_method := method; s_txid := None; s_vout := vout; s_blinding := ch_seal ch u cid ty |}.

(** The same state in the hands of the payer; amounts may have another blinding *)
Definition moved (ch : Choices) (method : CloseMethod) (layer : Layer1) (u : Inp -> Use) (cid : N) (vel : N -> VelocityHint)
  (x : Inp) (r : N * Assign) : Prop :=
  exists seal, payer_seal ch method layer (u x) cid (in_ty x) (vel (in_ty x)) seal /\
    r = (in_ty x, unblinded (assigned seal (in_state x))).
Definition use_main (x : Inp) : Use := UMain (in_seal x) (in_out x).
Definition use_blank (x : Inp) : Use := UBlank (in_seal x) (in_out x).

(** An amount for a seal, or nothing *)
Definition amount_to (ty tag : N) (seal : BSeal) (v : N) : list (N * Assign) :=
  if v =? 0 then [] else [(ty, assigned seal (RAmount v 0 tag))].

(** What a method pays of the amount: outputs with the closing method of the payer first, then
    the others *)
Definition paid (amt : N) (method : CloseMethod) (a : N) (l : list Inp) (m : CloseMethod) : N :=
  let own := N.min amt (total a (with_method method l)) in
  if keqb m method then own else amt - own.

(** The assignments of a transition, without the blinding of amounts *)
Definition shown (t : Operation) : list (N * Assign) := map (fun p => (fst p, unblinded (snd p))) (made t).

(** The transitions [ts] spend all inputs [l], one transition for each closing method *)
Definition spends_all (cid : N) (l : list Inp) (ts : list TransitionInfo) : Prop :=
  NoDup (map ti_method ts) /\
  (forall x, In x l -> exists t, In t ts /\ ti_method t = os_method (in_seal x)) /\
  forall t, In t ts ->
    with_method (ti_method t) l <> [] /\
    op_kind (ti_transition t) = OpTransition /\ op_contract (ti_transition t) = cid /\
    Permutation (op_inputs (ti_transition t)) (map in_out (with_method (ti_method t) l)) /\
    forall o, In o (ti_inputs t) <-> In o (map (fun x => os_outpoint (in_seal x)) (with_method (ti_method t) l)).

(** The seal of the beneficiary *)
Definition is_beneficiary (D : Defs) (ch : Choices) (layer : Layer1) (cid a : N) (b : Beneficiary) (vout : option N) (seal : BSeal) : Prop :=
  match b with
  | BlindedSeal x => vout = None /\ seal = BConcealed (df_secret D layer x)
  | WitnessVout p => exists v, vout = Some v /\
      seal = BRevealed {| s_layer := layer; s_method := p2v_method p; s_txid := None; s_vout := v; s_blinding := ch_seal ch UBeneficiary cid a |}
  end.

(** The type of state which the invoice asks for: the one it names, or the default of the
    operation *)
Definition asked_type (D : Defs) (X : BuildCtx) (tt : N) (inv : RgbInvoice) (a : N) : Prop :=
  exists name, assignment_named X name a /\
    match InvoiceModel.assignment inv with Some n => name = df_name D n | None => default_named X tt name end.

(** The contract, the type of operation and the type of state of an invoice, as the stash has
    them: by the implementation of the named interface for the schema of the contract *)
Definition asks (D : Defs) (s : Stock) (inv : RgbInvoice) (cid tt a : N) : Prop :=
  exists iface g si i im X,
    InvoiceModel.contract inv = Some cid /\ InvoiceModel.iface inv = Some iface /\
    stash_genesis (sk_stash s) cid = Ok g /\ stash_schema (sk_stash s) (op_ty g) = Ok si /\
    iface_by_name (sk_stash s) (df_name D iface) = Ok i /\ impl_get si (if_id i) = Some im /\
    bc_schema X = df_schema D (si_schema si) /\ bc_iface X = df_iface D i /\ bc_impl X = df_impl D im /\
    match InvoiceModel.operation inv with
    | Some op => type_of (fm_transitions (bc_impl X)) (df_name D op) = Some tt
    | None => exists op, ff_default (bc_iface X) = Some op /\ type_of (fm_transitions (bc_impl X)) op = Some tt
    end /\
    asked_type D X tt inv a.

(** ** Conditions *)

(** A schema has at most 255 types of owned state. *)
Definition schemata_small (D : Defs) : Prop := forall r, len (fs_owned (df_schema D r)) <= 255.

(** Hash maps and sets list what they have *)
Definition orders_ok (od : Orders) : Prop :=
  (forall cid m, Permutation (or_outs od cid m) m) /\
  (forall cid seal m, Permutation (or_assigns od cid seal m) m) /\
  (forall m, Permutation (or_contracts od m) m) /\
  (forall l, Permutation (or_rights od l) l).

(** Inputs of one type which are spent in one transition are given different outputs or
    different blindings. *)
Definition separate (ch : Choices) (u : Inp -> Use) (cid : N) (vel : N -> VelocityHint) (l : list Inp) : Prop :=
  forall x y, In x l -> In y l -> in_ty x = in_ty y -> os_method (in_seal x) = os_method (in_seal y) ->
    ch_alloc ch (u x) cid (in_ty x) (vel (in_ty x)) = ch_alloc ch (u y) cid (in_ty y) (vel (in_ty y)) ->
    ch_seal ch (u x) cid (in_ty x) = ch_seal ch (u y) cid (in_ty y) -> x = y.

(** The change goes to another output or blinding than the payment. *)
Definition change_apart (ch : Choices) (method : CloseMethod) (cid a : N) (vel : N -> VelocityHint) (b : Beneficiary) (vout : option N) : Prop :=
  match b with
  | BlindedSeal _ => True
  | WitnessVout p =>
      p2v_method p = method -> ch_alloc ch UChange cid a (vel a) = vout -> ch_seal ch UChange cid a <> ch_seal ch UBeneficiary cid a
  end.

(** No sum of amounts is too great, or sums which are make the program stop *)
Definition no_wrap (wrap : bool) (a : N) (l : list Inp) : Prop := wrap = false \/ total a l <= U64MAX.
