(** * From an invoice to a balance: specification for C68 *)
From Verif Require Import Base StM Core ContainerModel PIndexModel PIndexSpec StateModel StateSpec StashModel StockModel StockAgain ConsignModel ConsignSpec.
From Verif Require Import BuilderModel BuilderSpec ComposeModel ComposeSpec TransferSpec.
Local Open Scope N_scope.

(** The transaction of the fascia commits to the transitions [ts], for the contract [cid]: each
    is in one of its bundles. (A batch becomes a fascia in the wallet, which is not part of this
    code base.) *)
Definition commits_to (H : Hashes) (f : Fascia) (cid : N) (ts : list TransitionInfo) : Prop :=
  forall i, In i ts -> exists b, In (cid, b) (fascia_bundles f) /\ In (op_id H (ti_transition i), ti_transition i) (b_known b).

(** The payer's stock [s] consumes a fascia which commits to the transitions, and is [s'] then. The
    fascia has no bundle twice. *)
Definition published {OG : OrdKey GlobalOut} (H : Hashes) (K : Merkle) (f : Fascia) (r : Resolver) (s s' : Stock) (cid : N) (ts : list TransitionInfo) : Prop :=
  reachable H K s /\ stock_call_ok H (SkFascia f r) /\ fascia_body H f r s = (s', Ok tt) /\
  NoDup (map (fun p => bundle_id H (snd p)) (fascia_bundles f)) /\ commits_to H f cid ts.
(** Its bundles are new to the stock, and no transition has the id of the contract. *)
Definition fresh (H : Hashes) (f : Fascia) (s : Stock) (cid : N) (ts : list TransitionInfo) : Prop :=
  (forall b, In (cid, b) (fascia_bundles f) -> new_bundle s (bundle_id H b)) /\ forall i, In i ts -> op_id H (ti_transition i) <> cid.

(** The amounts [outs] of the type [ty] came to the stock in outputs of the transitions [ts],
    under the seal [x], different outputs each *)
Definition amounts_of {OG : OrdKey GlobalOut} (H : Hashes) (s : Stock) (r : Resolver) (cid : N) (w : WitnessId)
    (ts : list TransitionInfo) (ty : N) (x : Seal) (outs : list (Opout * N)) : Prop :=
  NoDup (map fst outs) /\
  forall oo v, In (oo, v) outs ->
    oo_ty oo = ty /\ (exists i, In i ts /\ oo_op oo = op_id H (ti_transition i)) /\
    exists blinding tag, receives s r cid KFungible oo x (RAmount v blinding tag) w.

(** What the state of a contract has of the type [ty] at a transaction output *)
Definition at_place (out : OutSeal) (ty : N) (a : OutAssign) : bool := keqb (oa_seal a) out && (oo_ty (oa_opout a) =? ty).
Definition worth (a : OutAssign) : N := match oa_state a with RAmount v _ _ => v | _ => 0 end.
Definition balance (mc : MemContract) (out : OutSeal) (ty : N) : N :=
  list_sum (map worth (filter (at_place out ty) (outs_all KFungible mc))).

(** Each of the inputs [l] is in the stock again, in an output of one of the transitions, with the
    same state (amounts may have another blinding) under a seal of the payer's choice; different
    inputs in different outputs. [back] says which is where. *)
Definition returned {OG : OrdKey GlobalOut} (H : Hashes) (s : Stock) (r : Resolver) (ch : Choices) (method : CloseMethod) (layer : Layer1)
    (u : Inp -> Use) (cid : N) (vel : N -> VelocityHint) (w : WitnessId) (ts : list TransitionInfo) (l : list Inp) (back : list (Inp * Opout)) : Prop :=
  Permutation (map fst back) l /\ NoDup (map snd back) /\
  forall y oo, In (y, oo) back ->
    oo_ty oo = in_ty y /\ (exists i, In i ts /\ oo_op oo = op_id H (ti_transition i)) /\
    exists x st, payer_seal ch method layer (u y) cid (in_ty y) (vel (in_ty y)) (BRevealed x) /\
      unblind st = unblind (in_state y) /\ receives s r cid (kind_of (in_state y)) oo x st w.
