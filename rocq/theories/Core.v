(** * The data of the rgb-core crate which this code base works on

    [rgb-core] is a dependency whose sources are not in /repo.  The types here
    are the ones /repo imports from it (src/contract/merge_reveal.rs:28-31,
    src/contract/assignments.rs:31-35, src/persistence/memory.rs:38-52), with the
    operations on them that /repo calls.  Identifiers, transaction ids and
    commitments are numbers; the hash functions producing them are the fields of
    the record [Hashes], which every definition using them takes as a parameter.
    Reserved and purely descriptive fields (locks, versions, timestamps, issuer
    strings) are folded into the opaque [op_head]. *)
From Verif Require Import Base.

(** ** Chains, closing methods, outpoints *)

(** [XChain]: src/containers/anchors.rs:31 imports it from rgb-core *)
Inductive Layer1 := Bitcoin | Liquid.
(** [bp::seals::txout::CloseMethod] *)
Inductive CloseMethod := OpretFirst | TapretFirst.

Definition layer_key (l : Layer1) : bool := match l with Bitcoin => false | Liquid => true end.
Definition method_key (m : CloseMethod) : bool :=
  match m with OpretFirst => false | TapretFirst => true end.
Lemma layer_key_inj a b : layer_key a = layer_key b -> a = b.
Proof. destruct a, b; (reflexivity || discriminate). Qed.
Lemma method_key_inj a b : method_key a = method_key b -> a = b.
Proof. destruct a, b; (reflexivity || discriminate). Qed.
#[export] Instance OrdLayer1 : OrdKey Layer1 := OrdVia layer_key layer_key_inj.
#[export] Instance OrdCloseMethod : OrdKey CloseMethod := OrdVia method_key method_key_inj.

(** [XOutpoint] *)
Record Outpoint := { xo_layer : Layer1; xo_txid : N; xo_vout : N }.
Definition outpoint_key (o : Outpoint) := (xo_layer o, (xo_txid o, xo_vout o)).
Lemma outpoint_key_inj a b : outpoint_key a = outpoint_key b -> a = b.
Proof. destruct a, b; cbv; intros [= -> -> ->]; reflexivity. Qed.
#[export] Instance OrdOutpoint : OrdKey Outpoint := OrdVia outpoint_key outpoint_key_inj.

(** [XWitnessId = XChain<Txid>] *)
Record WitnessId := { w_layer : Layer1; w_txid : N }.
Definition witness_key (w : WitnessId) := (w_layer w, w_txid w).
Lemma witness_key_inj a b : witness_key a = witness_key b -> a = b.
Proof. destruct a, b; cbv; intros [= -> ->]; reflexivity. Qed.
#[export] Instance OrdWitnessId : OrdKey WitnessId := OrdVia witness_key witness_key_inj.

(** ** Seals *)

(** [XGraphSeal = XChain<BlindSeal<TxPtr>>] and [XGenesisSeal = XChain<BlindSeal<Txid>>]:
    [s_txid = None] is [TxPtr::WitnessTx].  A genesis seal always has a txid. *)
Record Seal := { s_layer : Layer1; s_method : CloseMethod; s_txid : option N;
                 s_vout : N; s_blinding : N }.
Definition seal_key (s : Seal) :=
  (s_layer s, (s_method s, (s_txid s, (s_vout s, s_blinding s)))).
Lemma seal_key_inj a b : seal_key a = seal_key b -> a = b.
Proof. destruct a, b; cbv; intros [= -> -> -> -> ->]; reflexivity. Qed.
#[export] Instance OrdSeal : OrdKey Seal := OrdVia seal_key seal_key_inj.

(** [XOutputSeal = XChain<ExplicitSeal<Txid>>] *)
Record OutSeal := { os_layer : Layer1; os_method : CloseMethod; os_txid : N; os_vout : N }.
Definition outseal_key (s : OutSeal) := (os_layer s, (os_method s, (os_txid s, os_vout s))).
Lemma outseal_key_inj a b : outseal_key a = outseal_key b -> a = b.
Proof. destruct a, b; cbv; intros [= -> -> -> ->]; reflexivity. Qed.
#[export] Instance OrdOutSeal : OrdKey OutSeal := OrdVia outseal_key outseal_key_inj.

(** [XOutputSeal::to_outpoint] *)
Definition os_outpoint (s : OutSeal) : Outpoint :=
  {| xo_layer := os_layer s; xo_txid := os_txid s; xo_vout := os_vout s |}.

(** [ExposedSeal::to_output_seal]: defined only for seals with an explicit txid *)
Definition to_output_seal (s : Seal) : option OutSeal :=
  match s_txid s with
  | Some t => Some {| os_layer := s_layer s; os_method := s_method s; os_txid := t;
                      os_vout := s_vout s |}
  | None => None
  end.

(** [ExposedSeal::try_to_output_seal]: a seal pointing to the witness transaction
    gets the id of the given witness, which must be of the same chain. *)
Definition try_to_output_seal (s : Seal) (w : WitnessId) : option OutSeal :=
  match to_output_seal s with
  | Some o => Some o
  | None =>
      if keqb (s_layer s) (w_layer w)
      then Some {| os_layer := s_layer s; os_method := s_method s; os_txid := w_txid w;
                   os_vout := s_vout s |}
      else None
  end.

(** ** State and assignments *)

(** [VoidState], [RevealedValue], [RevealedData], [RevealedAttach]; values of
    structured state and attachment descriptors are opaque. *)
Inductive RState :=
| RVoid
| RAmount (value blinding tag : N)
| RData (value salt : N)
| RAttach (file salt : N).

(** [TypedAssigns] variants *)
Inductive StateKind := KDeclarative | KFungible | KStructured | KAttachment.
Definition kind_eqb (a b : StateKind) : bool :=
  match a, b with
  | KDeclarative, KDeclarative | KFungible, KFungible
  | KStructured, KStructured | KAttachment, KAttachment => true
  | _, _ => false
  end.
Lemma kind_eqb_eq a b : kind_eqb a b = true <-> a = b.
Proof. destruct a, b; cbv; split; congruence. Qed.
Lemma kind_eqb_refl a : kind_eqb a a = true.
Proof. destruct a; reflexivity. Qed.

Definition kind_of (s : RState) : StateKind :=
  match s with
  | RVoid => KDeclarative | RAmount _ _ _ => KFungible
  | RData _ _ => KStructured | RAttach _ _ => KAttachment
  end.

(** [Assign<State, Seal>]; concealed seals ([XChain<SecretSeal>]) and concealed
    states are commitments.  The reserved [lock] field is left out. *)
Inductive Assign :=
| Confidential (seal : N) (state : N)
| ConfidentialState (seal : Seal) (state : N)
| ConfidentialSeal (seal : N) (state : RState)
| Revealed (seal : Seal) (state : RState).

(** [Assign::revealed_seal], [Assign::as_revealed_state], [Assign::to_revealed] *)
Definition revealed_seal (a : Assign) : option Seal :=
  match a with
  | ConfidentialState s _ | Revealed s _ => Some s
  | Confidential _ _ | ConfidentialSeal _ _ => None
  end.
Definition revealed_state (a : Assign) : option RState :=
  match a with
  | ConfidentialSeal _ st | Revealed _ st => Some st
  | Confidential _ _ | ConfidentialState _ _ => None
  end.
Definition to_revealed (a : Assign) : option (Seal * RState) :=
  match a with Revealed s st => Some (s, st) | _ => None end.

(** [TypedAssigns<Seal>]: a vector of assignments of one kind of state *)
Record TypedAssigns := { ta_kind : StateKind; ta_list : list Assign }.
(** What the Rust types enforce: revealed states are of the vector's kind. *)
Definition ta_typed (t : TypedAssigns) : Prop :=
  forall a st, In a (ta_list t) -> revealed_state a = Some st -> kind_of st = ta_kind t.

(** [Assignments<Seal>]: [TinyOrdMap<AssignmentType, TypedAssigns<Seal>>] *)
Definition Assignments := omap N TypedAssigns.

(** ** Operations and bundles *)

(** [Opout] *)
Record Opout := { oo_op : N; oo_ty : N; oo_no : N }.
Definition opout_key (o : Opout) := (oo_op o, (oo_ty o, oo_no o)).
Lemma opout_key_inj a b : opout_key a = opout_key b -> a = b.
Proof. destruct a, b; cbv; intros [= -> -> ->]; reflexivity. Qed.
#[export] Instance OrdOpout : OrdKey Opout := OrdVia opout_key opout_key_inj.

Inductive OpKind := OpGenesis | OpTransition | OpExtension.
Definition opkind_eqb (a b : OpKind) : bool :=
  match a, b with
  | OpGenesis, OpGenesis | OpTransition, OpTransition | OpExtension, OpExtension => true
  | _, _ => false
  end.

(** [Genesis], [Transition] and [Extension] as one record: [op_contract] is the
    contract a transition or extension belongs to, [op_ty] its type, [op_nonce] the
    transition nonce, [op_inputs] the spent outputs of a transition and
    [op_redeemed] the valencies redeemed by an extension; they are empty where the
    Rust type has no such field.  Metadata and global state values are opaque. *)
Record Operation := {
  op_kind : OpKind;
  op_head : N;
  op_contract : N;
  op_ty : N;
  op_nonce : N;
  op_meta : omap N N;
  op_globals : omap N (list N);
  op_inputs : oset Opout;
  op_redeemed : omap N N;
  op_assigns : Assignments;
  op_valencies : oset N
}.

Definition set_assigns (o : Operation) (a : Assignments) : Operation :=
  {| op_kind := op_kind o; op_head := op_head o; op_contract := op_contract o;
     op_ty := op_ty o; op_nonce := op_nonce o; op_meta := op_meta o;
     op_globals := op_globals o; op_inputs := op_inputs o; op_redeemed := op_redeemed o;
     op_assigns := a; op_valencies := op_valencies o |}.

Definition set_nonce (o : Operation) (n : N) : Operation :=
  {| op_kind := op_kind o; op_head := op_head o; op_contract := op_contract o;
     op_ty := op_ty o; op_nonce := n; op_meta := op_meta o;
     op_globals := op_globals o; op_inputs := op_inputs o; op_redeemed := op_redeemed o;
     op_assigns := op_assigns o; op_valencies := op_valencies o |}.

(** [TransitionBundle]: closing method, input map (input number to operation id)
    and the transitions known, keyed by operation id *)
Record Bundle := { b_method : CloseMethod; b_inputs : omap N N; b_known : omap N Operation }.

(** ** Commitments *)

Record Hashes := {
  h_seal : Seal -> N;                      (* [Conceal] for seals: [XChain<SecretSeal>] *)
  h_state : RState -> N;                   (* [Conceal] for state *)
  h_op : Operation -> N;                   (* commitment to an operation *)
  h_bundle : CloseMethod -> omap N N -> N  (* [TransitionBundle::bundle_id] *)
}.

(** [Conceal for Assign] *)
Definition conceal (H : Hashes) (a : Assign) : Assign :=
  match a with
  | Confidential s st => Confidential s st
  | ConfidentialState s st => Confidential (h_seal H s) st
  | ConfidentialSeal s st => Confidential s (h_state H st)
  | Revealed s st => Confidential (h_seal H s) (h_state H st)
  end.

Definition conceal_typed (H : Hashes) (t : TypedAssigns) : TypedAssigns :=
  {| ta_kind := ta_kind t; ta_list := map (conceal H) (ta_list t) |}.

Definition conceal_assigns (H : Hashes) (a : Assignments) : Assignments :=
  mmap (conceal_typed H) a.

Definition conceal_op (H : Hashes) (o : Operation) : Operation :=
  set_assigns o (conceal_assigns H (op_assigns o)).

(** [Operation::id]: commits to the operation with all assignments concealed.
    [Genesis::contract_id] is the same commitment. *)
Definition op_id (H : Hashes) (o : Operation) : N := h_op H (conceal_op H o).
Definition contract_id (H : Hashes) (genesis : Operation) : N := op_id H genesis.
Definition bundle_id (H : Hashes) (b : Bundle) : N := h_bundle H (b_method b) (b_inputs b).

(** Known transitions are keyed by their own ids *)
Definition bundle_keyed (H : Hashes) (b : Bundle) : Prop :=
  forall k t, mget k (b_known b) = Some t -> op_id H t = k.

(** A commitment binds two given preimages: they are not a collision. *)
Definition binds {A B} (h : A -> B) (x y : A) : Prop := h x = h y -> x = y.

(** All four commitments are collision free. *)
Definition collision_free (H : Hashes) : Prop :=
  (forall a b, binds (h_seal H) a b) /\ (forall a b, binds (h_state H) a b) /\
  (forall a b, binds (h_op H) a b) /\
  (forall m m' i i', h_bundle H m i = h_bundle H m' i' -> m = m' /\ i = i').

(** ** Witness ordering (rgb-core [vm::WitnessOrd]) *)
Inductive WitnessOrd :=
| Mined (height timestamp : N)
| Tentative
| Archived.

(** [WitnessOrd::is_valid] *)
Definition ord_valid (o : WitnessOrd) : bool :=
  match o with Archived => false | _ => true end.
