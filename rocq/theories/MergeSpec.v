(** What C12, C13, C14 and C17 say, independently of the merge functions. *)
From Verif Require Import Base.
From Verif Require Export Core.
Local Open Scope N_scope.

(** Two views show the same assignment when their concealed forms agree. *)
Definition same_assignment (H : Hashes) (a b : Assign) : Prop := conceal H a = conceal H b.

(** [x] is a view of the assignment shown by [a] (and [b]) which reveals the seal
    exactly if one of them does, and the state exactly if one of them does. *)
Record most_revealed (H : Hashes) (a b x : Assign) : Prop := {
  mr_same : conceal H x = conceal H a;
  mr_seal : revealed_seal x = None <-> revealed_seal a = None /\ revealed_seal b = None;
  mr_seal_from : forall s, revealed_seal x = Some s ->
                 revealed_seal a = Some s \/ revealed_seal b = Some s;
  mr_state : revealed_state x = None <-> revealed_state a = None /\ revealed_state b = None;
  mr_state_from : forall s, revealed_state x = Some s ->
                  revealed_state a = Some s \/ revealed_state b = Some s
}.

(** The assignment number [no] of type [ty] of an operation *)
Definition slot (o : Operation) (ty : N) (no : nat) : option Assign :=
  match mget ty (op_assigns o) with
  | Some t => nth_error (ta_list t) no
  | None => None
  end.

(** The kind of state assigned under a type *)
Definition slot_kind (o : Operation) (ty : N) : option StateKind :=
  option_map ta_kind (mget ty (op_assigns o)).

(** Two operations differ at most in what their assignments reveal. *)
Definition same_but_assigns (a b : Operation) : Prop :=
  set_assigns a [] = set_assigns b [].

(** [r] is [a] with every assignment replaced by the most revealed view of [a] and [b]. *)
Record op_join (H : Hashes) (a b r : Operation) : Prop := {
  oj_rest : same_but_assigns r a;
  oj_id : op_id H r = op_id H a;
  oj_types : forall ty, slot_kind r ty = slot_kind a ty;
  oj_sorted : msorted (op_assigns r);
  oj_slots : forall ty no,
    match slot a ty no, slot b ty no, slot r ty no with
    | Some x, Some y, Some z => same_assignment H x y /\ most_revealed H x y z
    | None, None, None => True
    | _, _, _ => False
    end
}.

(** [r] differs from [o] exactly in this: assignments whose seal is hidden and has the
    hash of [seal] now show [seal]. *)
Definition reveals_only (H : Hashes) (seal : Seal) (a r : Assign) : Prop :=
  conceal H r = conceal H a /\ revealed_state r = revealed_state a /\
  revealed_seal r =
    match revealed_seal a with
    | Some s => Some s
    | None => match conceal H a with
              | Confidential h _ => if h =? h_seal H seal then Some seal else None
              | _ => None
              end
    end.

(** Everything an operation carries, other than what is hidden behind commitments *)
Record op_revealed (H : Hashes) (seal : Seal) (o r : Operation) : Prop := {
  or_rest : same_but_assigns r o;
  or_types : forall ty, slot_kind r ty = slot_kind o ty;
  or_slots : forall ty no,
    match slot o ty no, slot r ty no with
    | Some x, Some z => reveals_only H seal x z
    | None, None => True
    | _, _ => False
    end
}.

(** What a merged bundle knows about one transition, given what both sides know *)
Definition merged_known (H : Hashes) (a b : option Operation) (r : option Operation) : Prop :=
  match a, b, r with
  | Some x, Some y, Some z => op_join H x y z
  | Some x, None, Some z => z = x
  | None, _, None => True
  | _, _, _ => False
  end.


(** A bundle as the Rust types and validation guarantee it: ordered maps, known
    transitions filed under their own ids *)
Definition bundle_wf (H : Hashes) (b : Bundle) : Prop :=
  bundle_keyed H b /\ msorted (b_known b) /\
  (forall k t, mget k (b_known b) = Some t -> msorted (op_assigns t)).
