(** * Comparison of containers: hand-written [PartialEq], [Ord] and [Hash] of
    src/containers/anchors.rs, partials.rs, src/interface/iface.rs, iimpl.rs and
    src/contract/assignments.rs *)
From Verif Require Import Base Core ContainerModel PIndexModel StateModel IfaceModel.
Local Open Scope N_scope.

(** anchors.rs 123-133 ([PubWitness]) *)
Definition pw_eq (a b : PubWitness) : bool := pw_txid a =? pw_txid b.
Definition pw_cmp (a b : PubWitness) : comparison := N.compare (pw_txid a) (pw_txid b).
(** [XChain] derives: the layer is compared first *)
Definition xw_eq (a b : XPubWitness) : bool := keqb (xw_layer a) (xw_layer b) && pw_eq (xw_pub a) (xw_pub b).
Definition xw_cmp (a b : XPubWitness) : comparison :=
  match cmp (xw_layer a) (xw_layer b) with Eq => pw_cmp (xw_pub a) (xw_pub b) | o => o end.
(** anchors.rs 185-195 ([WitnessBundle]) *)
Definition wb_eq (a b : WitnessBundle) : bool := xw_eq (wb_witness a) (wb_witness b).
Definition wb_cmp (a b : WitnessBundle) : comparison := xw_cmp (wb_witness a) (wb_witness b).
(** partials.rs 142-156 ([TransitionInfo]); [ti_fed] is what the hasher gets *)
Definition ti_eq (a b : TransitionInfo) : bool := ti_id a =? ti_id b.
Definition ti_cmp (a b : TransitionInfo) : comparison := N.compare (ti_id a) (ti_id b).
Definition ti_fed (a : TransitionInfo) : N := ti_id a.
(** iface.rs 401-415 ([Iface]), [id] is [iface_id] *)
Definition if_eq (id : FullIface -> N) (a b : FullIface) : bool := id a =? id b.
Definition if_cmp (id : FullIface -> N) (a b : FullIface) : comparison := N.compare (id a) (id b).
Definition if_fed (id : FullIface -> N) (a : FullIface) : N := id a.

(** assignments.rs 101-114 ([PartialEq]), 116-129 ([Ord]), 86 (derived [Hash]) *)
Definition oa_eq (a b : OutAssign) : bool := keqb (oa_opout a) (oa_opout b) && keqb (oa_seal a) (oa_seal b).
Definition oa_cmp (a b : OutAssign) : comparison :=
  if oa_eq a b then Eq
  else match cmp (oa_opout a) (oa_opout b) with Eq => cmp (oa_seal a) (oa_seal b) | o => o end.
Definition oa_fed (a : OutAssign) : Opout * OutSeal * RState * option WitnessId :=
  (oa_opout a, oa_seal a, oa_state a, oa_witness a).

(** iimpl.rs 119-123, 156-160, 191-195 ([NamedField], [NamedVariant], [NamedType]), without
    the reserved bytes; 103 (derived [Ord]) *)
Definition nf_eq (a b : N * N) : bool := (fst a =? fst b) || (snd a =? snd b).
Definition nf_cmp (a b : N * N) : comparison :=
  match N.compare (fst a) (fst b) with Eq => N.compare (snd a) (snd b) | o => o end.
(** iimpl.rs 207 (derived [PartialEq] of [IfaceImpl]): tables are compared pairwise *)
Fixpoint table_eq (l m : list (N * N)) : bool :=
  match l, m with
  | [], [] => true
  | a :: l', b :: m' => nf_eq a b && table_eq l' m'
  | _, _ => false
  end.
Definition impl_eq (a b : FullImpl) : bool :=
  (fm_schema a =? fm_schema b) && (fm_iface a =? fm_iface b) && (Z.eqb (fm_timestamp a) (fm_timestamp b)) &&
  table_eq (fm_metadata a) (fm_metadata b) && table_eq (fm_globals a) (fm_globals b) &&
  table_eq (fm_assigns a) (fm_assigns b) && table_eq (fm_valencies a) (fm_valencies b) &&
  table_eq (fm_transitions a) (fm_transitions b) && table_eq (fm_extensions a) (fm_extensions b) &&
  table_eq (fm_errors a) (fm_errors b).
