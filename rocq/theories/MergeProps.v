(** C12, C13, C14 and C17: merging views and revealing seals. *)
From Verif Require Import Base MergeModel MergeSpec MergeProofs HashExists.
Local Open Scope N_scope.

(** ** C12 *)
(** The merged view shows the same assignment and reveals whatever either side reveals. *)
Theorem C12_merge_assign_most_revealed : forall H a b,
  same_assignment H a b -> most_revealed H a b (merge_assign a b).
Proof. exact merge_assign_most. Qed.

Theorem C12_merge_assign_idempotent : forall a, merge_assign a a = a.
Proof. exact merge_assign_idem. Qed.

Theorem C12_merge_assign_commutative : forall H a b,
  collision_free H -> same_assignment H a b -> merge_assign a b = merge_assign b a.
Proof. exact merge_assign_comm. Qed.

Theorem C12_merge_assign_associative : forall H a b c,
  collision_free H -> same_assignment H a b -> same_assignment H b c ->
  merge_assign a (merge_assign b c) = merge_assign (merge_assign a b) c.
Proof. exact merge_assign_assoc. Qed.

Definition ex_seal : Seal :=
  {| s_layer := Bitcoin; s_method := TapretFirst; s_txid := None; s_vout := 1; s_blinding := 2 |}.
Definition ex_state : RState := RAmount 7 0 1.
(** Two complementary views of one assignment, with collision-free commitments *)
Example C12_witness : forall H, collision_free H ->
  let a := ConfidentialSeal (h_seal H ex_seal) ex_state in
  let b := ConfidentialState ex_seal (h_state H ex_state) in
  same_assignment H a b /\ a <> b /\ merge_assign a b = Revealed ex_seal ex_state.
Proof. intros H HC a b. repeat split; discriminate. Qed.
Example collision_free_exists : exists H, collision_free H.
Proof. exact (ex_intro _ ideal_hashes ideal_collision_free). Qed.

Print Assumptions C12_merge_assign_most_revealed.
Print Assumptions C12_merge_assign_idempotent.
Print Assumptions C12_merge_assign_commutative.
Print Assumptions C12_merge_assign_associative.

(** ** C13 *)
(** Views with different ids are rejected ... *)
Theorem C13_merge_op_mismatch : forall H a b,
  op_id H a <> op_id H b -> merge_op H a b = Err (OperationMismatch (op_id H a) (op_id H b)).
Proof. intros H a b N. unfold merge_op. rewrite (proj2 (N.eqb_neq _ _) N). reflexivity. Qed.

(** ... and views with the same id are merged, slot by slot, unless they are a hash
    collision; nothing panics. *)
Theorem C13_merge_op_join : forall H a b,
  binds (h_op H) (conceal_op H a) (conceal_op H b) -> msorted (op_assigns a) ->
  op_id H a = op_id H b ->
  exists r, merge_op H a b = Ok r /\ op_join H a b r.
Proof. intros H a b B S E. apply merge_op_join; assumption. Qed.

Theorem C13_merge_op_idempotent : forall H a,
  msorted (op_assigns a) -> merge_op H a a = Ok a.
Proof. exact merge_op_idem. Qed.

Theorem C13_merge_op_commutative : forall H a b,
  collision_free H -> op_id H a = op_id H b ->
  msorted (op_assigns a) -> msorted (op_assigns b) -> merge_op H a b = merge_op H b a.
Proof. exact merge_op_comm. Qed.

Definition ex_op (l : list Assign) : Operation :=
  {| op_kind := OpTransition; op_head := 0; op_contract := 5; op_ty := 1; op_nonce := 9;
     op_meta := []; op_globals := []; op_inputs := [{| oo_op := 5; oo_ty := 3; oo_no := 0 |}];
     op_redeemed := []; op_assigns := [(3, {| ta_kind := KFungible; ta_list := l |})];
     op_valencies := [] |}.

Definition ex_view1 (H : Hashes) : Operation :=
  ex_op [Confidential 4 5; ConfidentialState ex_seal (h_state H ex_state)].
Definition ex_view2 (H : Hashes) : Operation :=
  ex_op [Confidential 4 5; ConfidentialSeal (h_seal H ex_seal) ex_state].
Example C13_witness : forall H, collision_free H ->
  let a := ex_view1 H in let b := ex_view2 H in
  op_id H a = op_id H b /\ msorted (op_assigns a) /\ msorted (op_assigns b) /\
  a <> b /\ op_id H a <> op_id H (set_nonce a 3).
Proof.
  intros H HC a b. split; [reflexivity|].
  split; [repeat constructor|]. split; [repeat constructor|]. split; [discriminate|].
  intros E. apply (proj1 (proj2 (proj2 HC))) in E.
  apply (f_equal op_nonce) in E. discriminate.
Qed.

Print Assumptions C13_merge_op_mismatch.
Print Assumptions C13_merge_op_join.
Print Assumptions C13_merge_op_idempotent.
Print Assumptions C13_merge_op_commutative.

(** ** C14 *)
(** The full property: the merged bundle knows every transition known to either side. *)
Definition merge_keeps_known (H : Hashes) (a b : Bundle) : Prop :=
  forall r, merge_bundle H a b = Ok r ->
  forall k t, mget k (b_known a) = Some t \/ mget k (b_known b) = Some t ->
  exists t', mget k (b_known r) = Some t'.

(** It fails: a transition which only the second view knows is dropped. *)
Theorem C14_merge_bundle_refuted :
  exists H a b,
    collision_free H /\ bundle_wf H a /\ bundle_wf H b /\ bundle_id H a = bundle_id H b /\
    ~ merge_keeps_known H a b.
Proof.
  destruct collision_free_exists as [H HC]. set (t := ex_view1 H).
  set (a := {| b_method := TapretFirst; b_inputs := [(0, op_id H t)]; b_known := [] |}).
  set (b := {| b_method := TapretFirst; b_inputs := [(0, op_id H t)]; b_known := [(op_id H t, t)] |}).
  exists H, a, b. split; [exact HC|].
  split; [repeat split; (constructor || discriminate)|].
  assert (G : forall k u, mget k (b_known b) = Some u -> k = op_id H t /\ u = t).
  { intros k u E. apply mget_In in E. destruct E as [E|[]]. injection E as <- <-. auto. }
  split; [|split; [reflexivity|]].
  - split; [intros k u E; apply G in E as [-> ->]; reflexivity|].
    split; [repeat constructor|]. intros k u E. apply G in E as [-> ->]. repeat constructor.
  - intros K. unfold merge_keeps_known in K.
    destruct (merge_bundle_spec H a b) as (r & Er & _ & _ & _ & M).
    { apply HC. }
    { repeat split; (constructor || discriminate). }
    { split; [intros k u E; apply G in E as [-> ->]; reflexivity|].
      split; [repeat constructor|]. intros k u E. apply G in E as [-> ->]. repeat constructor. }
    destruct (K r Er (op_id H t) t) as (t' & E).
    { right. unfold b. cbn [b_known mget]. rewrite keqb_refl. reflexivity. }
    specialize (M (op_id H t)). rewrite E in M. exact M.
Qed.

(** What does hold, exactly: the merged bundle has the same id and knows the
    transitions the first view knows, each as revealed as either side has it; it
    fails only if the first view knows more transitions than it has inputs.  Missing
    for C14: transitions known only to the second view. *)
Theorem C14_merge_bundle_partial : forall H a b,
  (forall x y, binds (h_op H) x y) -> bundle_wf H a -> bundle_wf H b ->
  if len (b_inputs a) <? len (b_known a) then merge_bundle H a b = Err InsufficientInputs
  else exists r, merge_bundle H a b = Ok r /\ b_method r = b_method a /\ b_inputs r = b_inputs a /\
       bundle_wf H r /\ forall k, merged_known H (mget k (b_known a)) (mget k (b_known b)) (mget k (b_known r)).
Proof. exact merge_bundle_spec. Qed.

Example C14_witness : forall H, collision_free H ->
  let i := op_id H (ex_view1 H) in
  let mk t := {| b_method := TapretFirst; b_inputs := [(0, i); (1, i)]; b_known := [(i, t)] |} in
  bundle_wf H (mk (ex_view1 H)) /\ bundle_wf H (mk (ex_view2 H)) /\
  (len (b_inputs (mk (ex_view1 H))) <? len (b_known (mk (ex_view1 H)))) = false.
Proof.
  intros H HC i mk.
  assert (G : forall v k t, mget k (b_known (mk v)) = Some t -> k = i /\ t = v).
  { intros v k u E. apply mget_In in E. destruct E as [E|[]]. injection E as <- <-. auto. }
  split; [|split; [|reflexivity]].
  - split; [intros k u E; apply G in E as [-> ->]; reflexivity|].
    split; [repeat constructor|]. intros k u E. apply G in E as [-> ->]. repeat constructor.
  - split; [intros k u E; apply G in E as [-> ->]; reflexivity|].
    split; [repeat constructor|]. intros k u E. apply G in E as [-> ->]. repeat constructor.
Qed.

Print Assumptions C14_merge_bundle_refuted.
Print Assumptions C14_merge_bundle_partial.

(** ** C17 *)
(** Revealing a seal in an operation changes exactly the assignments hidden under its hash ... *)
Theorem C17_reveal_op : forall H seal o, op_revealed H seal o (reveal_op H seal o).
Proof. exact reveal_op_spec. Qed.

(** ... where the change of one assignment is completely determined, ... *)
Theorem C17_reveal_determined : forall H seal a r1 r2,
  reveals_only H seal a r1 -> reveals_only H seal a r2 -> r1 = r2.
Proof. exact reveals_only_unique. Qed.

(** ... the id is kept, ... *)
Theorem C17_reveal_keeps_id : forall H seal o, op_id H (reveal_op H seal o) = op_id H o.
Proof. exact reveal_op_id. Qed.

(** ... and doing it twice is doing it once. *)
Theorem C17_reveal_idempotent : forall H seal o,
  reveal_op H seal (reveal_op H seal o) = reveal_op H seal o.
Proof. exact reveal_op_idem. Qed.

(** The same for every transition of a bundle, whose id does not change. *)
Theorem C17_reveal_bundle : forall H seal b,
  let r := reveal_bundle H seal b in
  b_method r = b_method b /\ b_inputs r = b_inputs b /\ bundle_id H r = bundle_id H b /\
  (forall k, match mget k (b_known b), mget k (b_known r) with
             | Some t, Some t' => op_revealed H seal t t' /\ op_id H t' = op_id H t
             | None, None => True
             | _, _ => False
             end) /\
  reveal_bundle H seal r = r.
Proof.
  intros H seal b r. repeat split.
  - intros k. unfold r, reveal_bundle. cbn [b_known]. rewrite mget_mmap.
    destruct (mget k (b_known b)) as [t|]; [|exact I].
    cbn [option_map]. split; [apply reveal_op_spec|apply reveal_op_id].
  - unfold r, reveal_bundle. cbn [b_method b_inputs b_known].
    rewrite mmap_idem by (intros v; apply reveal_op_idem). reflexivity.
Qed.

(** The revealed seals of a vector of assignments are exactly the seals of its
    assignments which show them, in order. *)
Theorem C17_filter_revealed_seals : forall t s,
  In s (filter_revealed_seals t) <->
  exists no a, nth_error (ta_list t) no = Some a /\ revealed_seal a = Some s.
Proof.
  intros t s. unfold filter_revealed_seals. rewrite filter_map_In. split.
  - intros (a & Ha & E). apply In_nth_error in Ha as [no Ha]. eauto.
  - intros (no & a & Ha & E). apply nth_error_In in Ha. eauto.
Qed.

Example C17_witness :
  let H := {| h_seal := s_blinding; h_state := fun _ => 0; h_op := fun _ => 0; h_bundle := fun _ _ => 0 |} in
  reveal_op H ex_seal (ex_op [Confidential 2 5; ConfidentialSeal 2 ex_state; ConfidentialSeal 3 ex_state])
  = ex_op [ConfidentialState ex_seal 5; Revealed ex_seal ex_state; ConfidentialSeal 3 ex_state].
Proof. reflexivity. Qed.

Print Assumptions C17_reveal_op.
Print Assumptions C17_reveal_determined.
Print Assumptions C17_reveal_keeps_id.
Print Assumptions C17_reveal_idempotent.
Print Assumptions C17_reveal_bundle.
Print Assumptions C17_filter_revealed_seals.
