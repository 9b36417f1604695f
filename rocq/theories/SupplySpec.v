(** * The supply of an asset: specification for C70 *)
From Verif Require Import Base StM Core ContainerModel PIndexModel PIndexSpec StateModel StateSpec.
Local Open Scope N_scope.

(** The outputs of an operation with amounts of one type *)
Definition amounts_of (H : Hashes) (o : Operation) (ty : N) : list Opout :=
  match mget ty (op_assigns o) with
  | Some {| ta_kind := KFungible; ta_list := l |} =>
      map (fun no => {| oo_op := op_id H o; oo_ty := ty; oo_no := N.of_nat no |}) (seq 0 (length l))
  | _ => []
  end.
(** Those it spends *)
Definition spent_of (o : Operation) (ty : N) : list Opout :=
  filter (fun i => oo_ty i =? ty) (op_inputs o).
Definition worth_of (worth : Opout -> N) (l : list Opout) : N := list_sum (map worth l).

Section Supply.
Context {OG : OrdKey GlobalOut}.

(** An operation of the contract was imported, and its witness is not archived. *)
Definition known_live (H : Hashes) (history : list StateCall) (cid : N) (ow : OpWitness) (o : Operation) : Prop :=
  exists call, In call history /\ imports H call cid ow o /\ live (state_after H history) (op_witness ow).

(** [ops] has each of these operations, once. *)
Definition enumerates (H : Hashes) (history : list StateCall) (cid : N) (ops : list Operation) : Prop :=
  NoDup (map (op_id H) ops) /\
  (forall o, In o ops -> exists ow, known_live H history cid ow o) /\
  (forall ow o, known_live H history cid ow o -> In (op_id H o) (map (op_id H) ops)).

(** None of them has two witnesses. *)
Definition one_live_witness (H : Hashes) (history : list StateCall) (cid : N) : Prop :=
  forall ow ow' o o', known_live H history cid ow o -> known_live H history cid ow' o' ->
    op_id H o = op_id H o' -> op_witness ow = op_witness ow'.

(** [worth] says what amount each output has, shown or hidden. *)
Definition truthful (H : Hashes) (history : list StateCall) (cid ty : N) (worth : Opout -> N) : Prop :=
  forall ow o ta no a st, known_live H history cid ow o ->
    In (ty, ta) (op_assigns o) -> ta_kind ta = KFungible ->
    nth_error (ta_list ta) no = Some a -> revealed_state a = Some st ->
    worth {| oo_op := op_id H o; oo_ty := ty; oo_no := N.of_nat no |} = state_value st.

(** What validation of a contract establishes: an operation makes no more than it spends
    and is allowed to issue; it spends outputs of other known operations; no output is
    spent twice. *)
Definition valid_supply (H : Hashes) (ops : list Operation) (ty : N) (worth : Opout -> N)
    (issued : Operation -> N) : Prop :=
  (forall o, In o ops -> worth_of worth (amounts_of H o ty) <= worth_of worth (spent_of o ty) + issued o) /\
  (forall o x, In o ops -> In x (spent_of o ty) -> exists o', In o' ops /\ In x (amounts_of H o' ty)) /\
  (forall o o' x, In o ops -> In o' ops -> In x (spent_of o ty) -> In x (spent_of o' ty) -> o = o') /\
  (forall o, In o ops -> NoDup (op_inputs o)).

(** No output is burnt, and all are shown. *)
Definition exact_supply (H : Hashes) (ops : list Operation) (ty : N) (worth : Opout -> N)
    (issued : Operation -> N) : Prop :=
  forall o, In o ops ->
    worth_of worth (amounts_of H o ty) = worth_of worth (spent_of o ty) + issued o /\
    forall ta a, In (ty, ta) (op_assigns o) -> In a (ta_list ta) -> exists seal st, a = Revealed seal st.

(** The allocations of a type which none of the operations spends *)
Definition is_spent (ops : list Operation) (x : Opout) : bool :=
  existsb (fun o => existsb (keqb x) (op_inputs o)) ops.
Definition unspent (ops : list Operation) (ty : N) (l : list OutAssign) : list OutAssign :=
  filter (fun a => (oo_ty (oa_opout a) =? ty) && negb (is_spent ops (oa_opout a))) l.
Definition total_of (l : list OutAssign) : N := list_sum (map (fun a => state_value (oa_state a)) l).
End Supply.
