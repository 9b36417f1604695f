(** * C79: a debug build behaves as a release build *)
From Verif Require Import Base StM Core MergeModel MergeProofs Ser ContainerModel PIndexModel StateModel StateSpec StashModel StockModel StockAgain StockProps
  InvoiceModel IfaceModel BuilderModel BuilderSpec BuilderProps SupplModel ConsignModel ConsignProps ComposeModel ComposeSpec ComposeProofs ComposeMain ComposeProps
  ReplicaProps DebugModel DebugProofs DebugCompose.
Local Open Scope N_scope.

(** Of any calls on a stock, all give the same results in both builds, with the same stock in
    the end: no assertion fails. *)
Theorem C79_stock_partial : forall {OG : OrdKey GlobalOut} H K l, collision_free H -> (forall c, In c l -> stock_call_ok H c) ->
  run (stock_body_dbg H K) l sk_empty = run (stock_body H K) l sk_empty.
Proof. intros OG H K l Hc Hk. apply run_same; [exact Hc|exact Hk|]. apply good_empty. Qed.

(** A payment is composed with the same result, when the amounts on the outputs which are spent
    have a sum of 64 bits. *)
Theorem C79_compose_partial : forall H D P s ch od inv prev method vout priority now, orders_ok od ->
  (forall cid tt a, asks D s inv cid tt a -> exists l, spent s cid prev l /\ total a l <= U64MAX) ->
  compose_dbg H D P s ch od inv prev method vout priority now = compose H D P true s ch od inv prev method vout priority now.
Proof. intros. rewrite compose_dbg_checked. apply compose_unchecked; assumption. Qed.

(** With greater sums the debug build panics, where the release build loses amounts. *)
Theorem C79_overflow_refuted : ~ forall H D P s ch od inv prev method vout priority now, orders_ok od ->
  compose_dbg H D P s ch od inv prev method vout priority now = compose H D P true s ch od inv prev method vout priority now.
Proof.
  intros Bad. pose proof (Bad bit_hashes cx_defs bx_pedersen (cx_stock cx_great [] []) cx_apart cx_orders (cx_invoice (BlindedSeal 33) (ISAmount 5) None)
    cx_prev TapretFirst None 7 50%Z cx_orders_ok) as E. vm_compute in E. discriminate.
Qed.

(** Two bundles with different ids, merged by a caller with the public function: a debug build
    panics, a release build keeps the first. *)
Definition dbg_a : Bundle := cn_bundle bit_hashes [cn_other].
Definition dbg_b : Bundle := {| b_method := b_method dbg_a; b_inputs := [(1, 4)]; b_known := [] |}.
Theorem C79_merge_refuted : ~ forall H a b, collision_free H -> merge_bundle_dbg H a b = merge_bundle H a b.
Proof.
  intros Bad. pose proof (Bad bit_hashes dbg_a dbg_b bit_collision_free) as E. vm_compute in E. discriminate.
Qed.
(** With the same id they never differ. *)
Theorem C79_merge_partial : forall H a b, collision_free H -> bundle_id H a = bundle_id H b -> merge_bundle_dbg H a b = merge_bundle H a b.
Proof. intros. apply merge_bundle_dbg_eq; assumption. Qed.
Theorem C79_operations_partial : forall H a b, collision_free H -> merge_op_dbg H a b = merge_op H a b.
Proof. intros. apply merge_op_dbg_eq; assumption. Qed.

(** The assertions do fail on what does not belong together. *)
Example C79_asserts :
  merge_assign_dbg bit_hashes (Confidential 1 2) (Confidential 1 3) = Panic /\
  merge_assign_dbg bit_hashes (Confidential 1 2) (Confidential 1 2) = Ok (Confidential 1 2) /\
  (let key := (cx_out 10 0, cx_seal TapretFirst 1) : OutKey in
   push_out_dbg key (RAmount 7 1 1) None [(key, (RAmount 8 1 1, None))] = None /\
   push_out key (RAmount 7 1 1) None [(key, (RAmount 8 1 1, None))] = Some [(key, (RAmount 8 1 1, None))] /\
   push_out_dbg key (RAmount 8 1 1) None [(key, (RAmount 8 1 1, None))] = Some [(key, (RAmount 8 1 1, None))]) /\
  (exists t, finish_dbg bit_hashes bx_pedersen cx_orders (tb_new 600 20) [cx_seal TapretFirst 1; cx_seal OpretFirst 2] = Panic /\
     finish bit_hashes bx_pedersen cx_orders (tb_new 600 20) [cx_seal TapretFirst 1] = Ok t).
Proof. repeat split; try (vm_compute; reflexivity). eexists. split; vm_compute; reflexivity. Qed.

(** Consignments of one contract are accepted, with bundles of which one knows transitions which
    the other does not, so that they are merged, and state is written again. *)
Example C79_example : forall OG : OrdKey GlobalOut, let calls := rp_more ++ [SkUpdate yes_witness 0] ++ rp_less in
  (forall c, In c calls -> stock_call_ok bit_hashes c) /\
  fst (run (stock_body_dbg bit_hashes cn_merkle) calls sk_empty) = [Ok tt; Ok tt; Ok tt; Ok tt; Ok tt] /\
  length (st_bundles (sk_stash (snd (run (stock_body_dbg bit_hashes cn_merkle) calls sk_empty)))) = 2%nat /\
  ~ cn_hidden = cn_cons bit_hashes [cn_other] cn_a.
Proof.
  intros OG calls. split; [|split; [|split]].
  - intros c Hc. apply in_app_or in Hc as [Hc|[<-|Hc]]; [|exact Logic.I|]; (assert (Hl : In c rp_less) by (cbn in Hc |- *; tauto); exact (proj1 (rp_less_ok c Hl))).
  - vm_compute. reflexivity.
  - vm_compute. reflexivity.
  - intros E. apply (f_equal c_bundles) in E. vm_compute in E. discriminate.
Qed.
Example C79_compose_example : exists batch,
  orders_ok cx_orders /\
  (forall cid tt a, asks cx_defs (cx_stock cx_l cx_l' cx_l') (cx_invoice (BlindedSeal 33) (ISAmount 40) None) cid tt a ->
     exists l, spent (cx_stock cx_l cx_l' cx_l') cid cx_prev l /\ total a l <= U64MAX) /\
  compose_dbg bit_hashes cx_defs bx_pedersen (cx_stock cx_l cx_l' cx_l') cx_apart cx_orders (cx_invoice (BlindedSeal 33) (ISAmount 40) None)
    cx_prev TapretFirst None 7 50%Z = Ok batch /\ length (di_iter (ba_main batch)) = 2%nat.
Proof.
  eexists. split; [exact cx_orders_ok|]. split; [|split; [vm_compute; reflexivity|reflexivity]].
  intros cid tt a Ha. destruct (asks_fun _ _ _ _ _ _ _ _ _ (cx_asks _ _ _ _ _) Ha) as (<- & <- & <-).
  exists cx_l. split; [exact cx_spent|]. vm_compute. discriminate.
Qed.

Print Assumptions C79_stock_partial.
Print Assumptions C79_compose_partial.
Print Assumptions C79_overflow_refuted.
Print Assumptions C79_merge_refuted.
Print Assumptions C79_merge_partial.
Print Assumptions C79_operations_partial.
