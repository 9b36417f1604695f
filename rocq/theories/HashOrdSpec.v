(** * What it means that composing a payment is deterministic: specification for C78 *)
From Verif Require Import Base Core InvoiceModel ContainerModel PIndexModel StockModel ComposeModel ComposeSpec.
Local Open Scope N_scope.

(** Both succeed, with related results, or neither does. *)
Definition agree {E A} (R : A -> A -> Prop) (r r' : result E A) : Prop :=
  match r, r' with
  | Ok x, Ok y => R x y
  | Ok _, _ | _, Ok _ => False
  | _, _ => True
  end.

(** The same transitions of the contract, and the same blank transitions of other contracts in
    some order *)
Definition same_batch (b b' : Batch) : Prop := ba_main b = ba_main b' /\ Permutation (ba_blanks b) (ba_blanks b').

(** No two rights of one type are moved with one method. *)
Definition single_rights (l : list Inp) : Prop :=
  forall x y, In x l -> In y l -> in_state x = RVoid -> in_state y = RVoid -> in_ty x = in_ty y ->
    os_method (in_seal x) = os_method (in_seal y) -> x = y.

(** State which is moved back to the payer goes to different seals. *)
Definition apart_main (D : Defs) (s : Stock) (ch : Choices) (cid a : N) (prev : list OutSeal) : Prop :=
  exists l, spent s cid prev l /\ separate ch use_main cid (velocity_for D s cid) (other_types a l) /\ single_rights (other_types a l).
Definition apart_blank (D : Defs) (s : Stock) (ch : Choices) (id : N) (prev : list OutSeal) : Prop :=
  exists l, spent s id prev l /\ separate ch use_blank id (velocity_for D s id) l /\ single_rights l.
