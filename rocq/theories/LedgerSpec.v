(** * What a stock was told: specification for C73 *)
From Verif Require Import Base StM Core ContainerModel ContainerSpec PIndexModel PIndexSpec StateModel StateSpec.
From Verif Require Import StashModel StockModel StockAgain SupplySpec.
Local Open Scope N_scope.

(** ** What a call shows *)

(** Operation [o] of contract [cid] is in what the call brings, published by [ow]; [term] is
    the secret seal listed as the terminal of its bundle. *)
Definition shown (H : Hashes) (call : StockCall) (cid : N) (ow : OpWitness) (o : Operation) (term : option N) : Prop :=
  match call with
  | SkAccept c _ =>
      cid = op_id H (c_genesis c) /\
      ((ow = OWGenesis /\ o = c_genesis c /\ term = None) \/
       (exists wb b, In wb (c_bundles c) /\ In b (anchored_bundles (wb_bundles wb)) /\ In o (mvals (b_known b)) /\
          ow = OWTransition (wb_id wb) (op_ty o) /\ term = mget (bundle_id H b) (c_terminals c)) \/
       (exists w, In o (c_extensions c) /\ first_spent c (op_id H o) w /\ ow = OWExtension w (op_ty o) /\ term = None))
  | SkFascia f _ =>
      exists b, In (cid, b) (fascia_bundles f) /\ In o (mvals (b_known b)) /\
        ow = OWTransition (fascia_witness_id f) (op_ty o) /\ term = None
  | _ => False
  end.

(** The seal which opens the terminal, among those stored by the calls before *)
Definition opens (H : Hashes) (before : list StockCall) (term : option N) (x : option Seal) : Prop :=
  match x with
  | Some s => term = Some (h_seal H s) /\ In (SkSeal s) before
  | None => forall s, In (SkSeal s) before -> term <> Some (h_seal H s)
  end.

(** One of the calls showed the operation, the seal opening its terminal being [x]. *)
Definition told (H : Hashes) (calls : list StockCall) (cid : N) (ow : OpWitness) (o : Operation) (x : option Seal) : Prop :=
  exists before call after term,
    calls = before ++ call :: after /\ shown H call cid ow o term /\ opens H before term x.

(** The same where calls may have failed, so that a seal may not have been stored. *)
Definition brought (H : Hashes) (calls : list StockCall) (cid : N) (ow : OpWitness) (o : Operation) (x : option Seal) : Prop :=
  exists before call after term,
    calls = before ++ call :: after /\ shown H call cid ow o term /\
    forall s, x = Some s -> term = Some (h_seal H s) /\ In (SkSeal s) before.

(** The assignment is to a seal which is shown, or concealed and opened. *)
Definition seen_as (H : Hashes) (x : option Seal) (a : Assign) (seal : Seal) (st : RState) : Prop :=
  a = Revealed seal st \/ (x = Some seal /\ a = ConfidentialSeal (h_seal H seal) st).

(** The allocation [a] is one of the outputs of [o]. *)
Definition gives (H : Hashes) (o : Operation) (x : option Seal) (ow : OpWitness) (k : StateKind) (a : OutAssign) : Prop :=
  exists ty ta no b seal st,
    In (ty, ta) (op_assigns o) /\ ta_kind ta = k /\ nth_error (ta_list ta) no = Some b /\ seen_as H x b seal st /\
    seal_output (op_witness ow) seal (oa_seal a) /\
    oa_opout a = {| oo_op := op_id H o; oo_ty := ty; oo_no := N.of_nat no |} /\
    oa_state a = st /\ oa_witness a = op_witness ow.

(** ** What is known of witnesses *)

(** The call brings a transition with the witness, so its status is looked up. *)
Definition asks (call : StockCall) (w : WitnessId) : bool :=
  match call with
  | SkAccept c _ => existsb (fun wb => keqb (wb_id wb) w && negb (len (wb_known_transitions wb) =? 0)) (c_bundles c)
  | SkFascia f _ => keqb (fascia_witness_id f) w && existsb (fun p => negb (len (b_known (snd p)) =? 0)) (fascia_bundles f)
  | _ => false
  end.
(** The status after a call: of known witnesses, an update looks up those not mined below the
    height, and keeps the status of those which it cannot find. *)
Definition status_after (w : WitnessId) (old : option WitnessOrd) (call : StockCall) : option WitnessOrd :=
  match call with
  | SkAccept _ r | SkFascia _ r => if asks call w then r w else old
  | SkUpdate r after =>
      match old with
      | Some (Mined height _) => if height <? N.max 1 after then old else match r w with Some new => Some new | None => old end
      | Some _ => match r w with Some new => Some new | None => old end
      | None => None
      end
  | _ => old
  end.
Definition status (calls : list StockCall) (w : WitnessId) : option WitnessOrd :=
  fold_left (status_after w) calls None.
(** No witness is needed, or it is not archived. *)
Definition alive (calls : list StockCall) (w : option WitnessId) : Prop :=
  match w with
  | None => True
  | Some w => exists ord, status calls w = Some ord /\ ord <> Archived
  end.

(** ** Which histories *)

(** What the types of the code and validation guarantee of what comes in *)
Definition ledger_call_ok (H : Hashes) (call : StockCall) : Prop :=
  stock_call_ok H call /\
  match call with
  | SkAccept c _ => msorted (c_terminals c) /\ forall wb, In wb (c_bundles c) -> methods_ok (wb_bundles wb)
  | _ => True
  end.

Section Histories.
Context {OG : OrdKey GlobalOut}.
(** All calls succeed, one after another. *)
Fixpoint all_calls_succeed (H : Hashes) (K : Merkle) (s : Stock) (l : list StockCall) : Prop :=
  match l with
  | [] => True
  | c :: l' => snd (stock_body H K c s) = Ok tt /\ all_calls_succeed H K (fst (stock_body H K c s)) l'
  end.
End Histories.

(** An operation was shown under one witness only, or all its seals which are known are
    outputs of the witness transaction itself. *)
Definition told_once (H : Hashes) (calls : list StockCall) : Prop :=
  forall cid ow ow' o o' x x', told H calls cid ow o x -> told H calls cid ow' o' x' -> op_id H o = op_id H o' ->
    op_witness ow = op_witness ow' \/
    (forall ty ta no b seal st, In (ty, ta) (op_assigns o) -> nth_error (ta_list ta) no = Some b ->
       seen_as H x b seal st -> s_txid seal = None).

(** ** The supply, as in C70 *)

Definition told_alive (H : Hashes) (calls : list StockCall) (cid : N) (ow : OpWitness) (o : Operation) (x : option Seal) : Prop :=
  told H calls cid ow o x /\ alive calls (op_witness ow).
(** [ops] has each operation whose witness is not archived, once. *)
Definition lists_told (H : Hashes) (calls : list StockCall) (cid : N) (ops : list Operation) : Prop :=
  NoDup (map (op_id H) ops) /\
  (forall o, In o ops -> exists ow x, told_alive H calls cid ow o x) /\
  (forall ow o x, told_alive H calls cid ow o x -> In (op_id H o) (map (op_id H) ops)).
Definition one_alive (H : Hashes) (calls : list StockCall) (cid : N) : Prop :=
  forall ow ow' o o' x x', told_alive H calls cid ow o x -> told_alive H calls cid ow' o' x' ->
    op_id H o = op_id H o' -> op_witness ow = op_witness ow'.
(** [worth] says what amount each output has, shown or hidden. *)
Definition tells_worth (H : Hashes) (calls : list StockCall) (cid ty : N) (worth : Opout -> N) : Prop :=
  forall ow o x ta no a st, told_alive H calls cid ow o x ->
    In (ty, ta) (op_assigns o) -> ta_kind ta = KFungible ->
    nth_error (ta_list ta) no = Some a -> revealed_state a = Some st ->
    worth {| oo_op := op_id H o; oo_ty := ty; oo_no := N.of_nat no |} = state_value st.
(** All amounts of the operation are in the open or ours. *)
Definition all_seen (H : Hashes) (calls : list StockCall) (cid ty : N) (o : Operation) : Prop :=
  exists ow x, told_alive H calls cid ow o x /\
    forall ta a, In (ty, ta) (op_assigns o) -> In a (ta_list ta) -> exists seal st, seen_as H x a seal st.
