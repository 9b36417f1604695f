(** * Specification for C75: the order in which global state values are reported *)
From Verif Require Import Base Core StateModel StateSpec.
Local Open Scope N_scope.

(** The witness of one operation was mined in a lower block than that of the other *)
Definition mined_before (s : MemState) (ow ow' : OpWitness) : Prop :=
  exists w w' h t h' t', op_witness ow = Some w /\ op_witness ow' = Some w' /\
    mget w (ms_witnesses s) = Some (Mined h t) /\ mget w' (ms_witnesses s) = Some (Mined h' t') /\ h < h'.

(** [x] is reported, and [y] before it (the last values come first) *)
Definition reported_after {A} (l : list A) (y x : A) : Prop := exists l1 l2 l3, l = l1 ++ y :: l2 ++ x :: l3.

(** One place is lower than another if its operation has a lower identifier, if in the same
    operation its nonce or its number is lower, or else by the witness *)
Definition lower (a b : GlobalOut) : Prop :=
  go_op a < go_op b \/ go_op a = go_op b /\
  (go_nonce a < go_nonce b \/ go_nonce a = go_nonce b /\
   (go_index a < go_index b \/ go_index a = go_index b /\ cmp (opw_key (go_witness a)) (opw_key (go_witness b)) = Lt)).
