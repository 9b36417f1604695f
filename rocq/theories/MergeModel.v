(** Model of src/contract/merge_reveal.rs and of the seal revealing functions of
    src/contract/assignments.rs. *)
From Verif Require Import Base.
From Verif Require Export Core.
Local Open Scope N_scope.

(** ** Merging views, merge_reveal.rs *)

(** merge_reveal.rs 33-60: the variants raised by the functions modelled here *)
Inductive MergeError :=
| OperationMismatch (a b : N)
| ChainMismatch (bitcoin liquid : N)
| TxidMismatch (a b : N)
| InsufficientInputs.

(** merge_reveal.rs 93-148 ([Assign::merge_reveal]); it never returns an error.  The
    [debug_assert]s (concealed forms equal, locks equal) are left out: they are
    absent from release builds. *)
Definition merge_assign (a b : Assign) : Assign :=
  match a, b with
  | _, Revealed s st => Revealed s st
  | Revealed s st, _ => Revealed s st
  | ConfidentialSeal _ st, ConfidentialState s _ => Revealed s st
  | ConfidentialState s _, ConfidentialSeal _ st => Revealed s st
  | ConfidentialState s st, ConfidentialState _ _ => ConfidentialState s st
  | ConfidentialSeal s st, ConfidentialSeal _ _ => ConfidentialSeal s st
  | x, Confidential _ _ => x
  | Confidential _ _, x => x
  end.

(** merge_reveal.rs 150-198 ([TypedAssigns::merge_reveal]): equal kinds are merged
    pairwise ([zip] stops at the shorter vector), different kinds hit
    [unreachable!].  The [expect] at 159 cannot fire: the result is not longer than
    the first vector. *)
Definition merge_typed (a b : TypedAssigns) : result MergeError TypedAssigns :=
  if kind_eqb (ta_kind a) (ta_kind b)
  then Ok {| ta_kind := ta_kind a;
             ta_list := map (fun p => merge_assign (fst p) (snd p))
                            (combine (ta_list a) (ta_list b)) |}
  else Panic.

(** merge_reveal.rs 200-215 ([Assignments::merge_reveal]): the maps are walked in
    parallel, keys of the first one are kept (the [debug_assert] on keys is absent
    from release builds). *)
Definition merge_assigns (a b : Assignments) : result MergeError Assignments :=
  rfold (fun acc p =>
           let! t := merge_typed (snd (fst p)) (snd (snd p)) in
           Ok (minsert (fst (fst p)) t acc))
        [] (combine a b).

(** merge_reveal.rs 257-294 ([Genesis], [Transition], [Extension]): the three
    implementations are the same *)
Definition merge_op (H : Hashes) (a b : Operation) : result MergeError Operation :=
  if op_id H a =? op_id H b
  then let! asg := merge_assigns (op_assigns a) (op_assigns b) in Ok (set_assigns a asg)
  else Err (OperationMismatch (op_id H a) (op_id H b)).

(** merge_reveal.rs 217-235 ([TransitionBundle::merge_reveal]); the [debug_assert] at
    219 is left out *)
Definition merge_bundle (H : Hashes) (a b : Bundle) : result MergeError Bundle :=
  let! known :=
    rfold (fun known p =>
             match mget (fst p) known with
             | Some t => let! t' := merge_op H t (snd p) in
                         Ok (minsert (fst p) t' (mremove (fst p) known))
             | None => Ok known
             end)
          (b_known a) (b_known b) in
  if len (b_inputs a) <? len known
  then Err InsufficientInputs
  else Ok {| b_method := b_method a; b_inputs := b_inputs a; b_known := known |}.

(** ** Revealing seals, assignments.rs *)

(** assignments.rs 210-230: the loop body of [TypedAssignsExt::reveal_seal] *)
Definition reveal_assign (H : Hashes) (seal : Seal) (a : Assign) : Assign :=
  match a with
  | ConfidentialSeal s st => if s =? h_seal H seal then Revealed seal st else a
  | Confidential s st => if s =? h_seal H seal then ConfidentialState seal st else a
  | _ => a
  end.

(** assignments.rs 205-239 ([TypedAssignsExt::reveal_seal]) *)
Definition reveal_typed (H : Hashes) (seal : Seal) (t : TypedAssigns) : TypedAssigns :=
  {| ta_kind := ta_kind t; ta_list := map (reveal_assign H seal) (ta_list t) |}.

(** assignments.rs 241-254 ([TypedAssignsExt::filter_revealed_seals]) *)
Definition filter_revealed_seals (t : TypedAssigns) : list Seal :=
  filter_map revealed_seal (ta_list t).

(** anchors.rs 253-257: revealing in all assignments of an operation *)
Definition reveal_op (H : Hashes) (seal : Seal) (o : Operation) : Operation :=
  set_assigns o (mmap (reveal_typed H seal) (op_assigns o)).

(** anchors.rs 253-257: revealing in all known transitions of a bundle *)
Definition reveal_bundle (H : Hashes) (seal : Seal) (b : Bundle) : Bundle :=
  {| b_method := b_method b; b_inputs := b_inputs b;
     b_known := mmap (reveal_op H seal) (b_known b) |}.
