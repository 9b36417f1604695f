(** What C15, C16, C18, C19, C54 and the container part of C17 say. *)
From Verif Require Import Base.
From Verif Require Export Core ContainerModel.
Local Open Scope N_scope.

(** ** Witnesses and anchors *)

(** The tapret and opret anchors of a set *)
Definition tapret_of (s : AnchorSet) : option Anchor :=
  match s with ASTapret t | ASDouble t _ => Some t | ASOpret _ => None end.
Definition opret_of (s : AnchorSet) : option Anchor :=
  match s with ASOpret o | ASDouble _ o => Some o | ASTapret _ => None end.

(** Two anchors belong together: same commitment, same proof *)
Definition compatible (a b : Anchor) : Prop := an_dbc a = an_dbc b /\ an_root a = an_root b.
Definition compatible_opt (a b : option Anchor) : Prop :=
  match a, b with Some x, Some y => compatible x y | _, _ => True end.

(** What is known after joining, per protocol: what one side knows, the first first *)
Definition joined (a b r : option Anchor) : Prop :=
  match a, b, r with
  | Some x, Some y, Some z =>
      an_dbc z = an_dbc x /\ an_root z = an_root x /\
      forall p, mget p (an_known z) =
                match mget p (an_known x) with Some m => Some m | None => mget p (an_known y) end
  | Some x, None, Some z | None, Some x, Some z => z = x
  | None, None, None => True
  | _, _, _ => False
  end.

(** The protocols known to both say the same *)
Definition agree (a b : option Anchor) : Prop :=
  match a, b with
  | Some x, Some y => forall p m n, mget p (an_known x) = Some m -> mget p (an_known y) = Some n -> m = n
  | _, _ => True
  end.

Definition anchor_wf (s : AnchorSet) : Prop :=
  forall a, tapret_of s = Some a \/ opret_of s = Some a -> msorted (an_known a).

(** ** Consignments *)

(** Witness bundle [wb] carries bundle [b] under the anchor [a] *)
Inductive carries : AnchoredBundles -> EAnchor -> Bundle -> Prop :=
| carries_tapret c : carries (ABTapret c) (cb_anchor c) (cb_bundle c)
| carries_opret c : carries (ABOpret c) (cb_anchor c) (cb_bundle c)
| carries_double_tapret t o : carries (ABDouble t o) (cb_anchor t) (cb_bundle t)
| carries_double_opret t o : carries (ABDouble t o) (cb_anchor o) (cb_bundle o).

(** The consignment contains bundle [b], anchored by [a] in witness [w] *)
Definition holds (c : Consignment) (w : WitnessId) (a : EAnchor) (b : Bundle) : Prop :=
  exists wb, In wb (c_bundles c) /\ wb_id wb = w /\ carries (wb_bundles wb) a b.

(** The consignment contains the operation [o] under the id [opid] *)
Inductive contains_op (H : Hashes) (c : Consignment) (opid : N) (o : Operation) : Prop :=
| co_genesis : o = c_genesis c -> op_id H o = opid -> contains_op H c opid o
| co_transition w a b : holds c w a b -> mget opid (b_known b) = Some o -> contains_op H c opid o
| co_extension : In o (c_extensions c) -> op_id H o = opid -> contains_op H c opid o.

(** Different copies of one bundle know the same transitions *)
Definition copies_agree (H : Hashes) (c : Consignment) : Prop :=
  forall w a b w' a' b', holds c w a b -> holds c w' a' b' ->
  bundle_id H b = bundle_id H b' -> b_known b = b_known b'.

(** The methods of the bundles are those of the anchors they are under *)
Definition methods_ok (a : AnchoredBundles) : Prop :=
  match a with
  | ABTapret t => b_method (cb_bundle t) = TapretFirst
  | ABOpret o => b_method (cb_bundle o) = OpretFirst
  | ABDouble t o => b_method (cb_bundle t) = TapretFirst /\ b_method (cb_bundle o) = OpretFirst
  end.

(** [b'] is [b] after revealing the terminal seal listed for it, if it is known *)
Definition terminal_revealed {E} (H : Hashes) (f : N -> result E (option Seal)) (terminals : omap N N)
    (b b' : Bundle) : Prop :=
  match mget (bundle_id H b) terminals with
  | Some secret => match f secret with
                   | Ok (Some seal) => b' = reveal_bundle H seal b
                   | _ => b' = b
                   end
  | None => b' = b
  end.

(** The same client bundle with a changed transition bundle *)
Definition client_rel (R : Bundle -> Bundle -> Prop) (c c' : ClientBundle) : Prop :=
  cb_mpc c' = cb_mpc c /\ cb_dbc c' = cb_dbc c /\ R (cb_bundle c) (cb_bundle c').
Definition anchored_rel (R : Bundle -> Bundle -> Prop) (a a' : AnchoredBundles) : Prop :=
  match a, a' with
  | ABTapret c, ABTapret c' | ABOpret c, ABOpret c' => client_rel R c c'
  | ABDouble t o, ABDouble t' o' => client_rel R t t' /\ client_rel R o o'
  | _, _ => False
  end.
Definition witness_rel (R : Bundle -> Bundle -> Prop) (w w' : WitnessBundle) : Prop :=
  wb_witness w' = wb_witness w /\ anchored_rel R (wb_bundles w) (wb_bundles w').

(** ** Batches *)

(** All transitions of a batch *)
Definition batch_slots (b : Batch) : list TransitionInfo :=
  di_first (ba_main b)
  :: (match di_second (ba_main b) with Some i => [i] | None => [] end)
  ++ map di_first (ba_blanks b) ++ filter_map di_second (ba_blanks b).

(** The recorded id is the id of the transition *)
Definition info_synced (H : Hashes) (i : TransitionInfo) : Prop := ti_id i = op_id H (ti_transition i).
