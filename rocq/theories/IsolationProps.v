(** * Contracts next to each other: property theorems C71 *)
From Verif Require Import Base StM Core Ser MergeModel MergeSpec MergeProofs ContainerModel ContainerSpec ContainerProofs.
From Verif Require Import PIndexModel PIndexSpec PIndexProofs StateModel StateSpec StateProofs StashModel StashSpec StashProofs StashAgain StashProps.
From Verif Require Import StockModel StockProofs StockAgain ConsignModel ConsignSpec ConsignProofs ConsignAccept ConsignProps FasciaProps StockProps StateProps.
From Verif Require Import TransferProofs TransferSpec TransferProps ExportSpec ExportProofs ExportProps IsolationSpec IsolationProofs.
Local Open Scope N_scope.

(** C71: after any calls which are not about the contract [B], successful or not, its record is
    what it was; and so is what is reported of it, as long as the witnesses it refers to have the
    same status. *)
Theorem C71_state : forall (OG : OrdKey GlobalOut) H K s l B,
  collision_free H -> reachable H K s -> (forall c, In c l -> stock_call_ok H c /\ not_about H B c) ->
  let s' := stock_after H K s l in
  match contract_state (sk_state s) B, contract_state (sk_state s') B with
  | Ok c, Ok c' =>
      mc_state c' = mc_state c /\
      (same_statuses s s' (mc_state c) ->
       (forall k, outs_all k c' = outs_all k c) /\ (forall ty, global_values c' ty = global_values c ty) /\
       (forall k o ty, outs_at k c' o ty = outs_at k c o ty) /\ (forall w, mc_witness_ord c' w = mc_witness_ord c w))
  | Err e, Err e' => e = e'
  | _, _ => False
  end.
Proof.
  intros OG H K s l B HC Re Hl s'. pose proof (kp_state _ _ _ (all_kept H K B s l HC Re Hl)) as E. fold s' in E.
  unfold contract_state. rewrite E. destruct (mget B (ms_contracts (sk_state s))) as [cs|]; cbn [ok_or rbind]; [|reflexivity].
  split; [reflexivity|]. intros Ss. cbn [mc_state] in Ss. set (c' := Build_MemContract _ _). set (c := Build_MemContract _ _).
  assert (Ew : forall w, mget w (mc_filter c') = mget w (mc_filter c)).
  { intros w. subst c c'. cbn [mc_filter]. rewrite !mget_filter_key. destruct (refers cs w) eqn:Er; [apply Ss, Er|reflexivity]. }
  assert (Ec : forall a, check_witness (mc_filter c') a = check_witness (mc_filter c) a).
  { intros a. unfold check_witness. destruct (oa_witness a) as [w|]; [rewrite Ew|]; reflexivity. }
  assert (Eg : forall o, global_ord (mc_filter c') o = global_ord (mc_filter c) o).
  { intros o. unfold global_ord. destruct (go_witness o) as [|w ?|w ?]; [reflexivity|rewrite Ew ..]; reflexivity. }
  split; [intros k; unfold outs_all; apply filter_ext, Ec|]. split.
  - intros ty. unfold global_values. change (mc_state c') with (mc_state c). destruct (mget ty _); [|reflexivity]. do 2 f_equal.
    induction (rev (mg_known m)) as [|p x IH]; [reflexivity|]. cbn [filter_map]. rewrite Eg, IH. reflexivity.
  - split; [intros k o ty; unfold outs_at; apply filter_ext, Ec|exact Ew].
Qed.

(** What the index finds at its outputs, and its genesis *)
Theorem C71_outputs : forall (OG : OrdKey GlobalOut) H K s l B,
  collision_free H -> reachable H K s -> (forall c, In c l -> stock_call_ok H c /\ not_about H B c) ->
  let s' := stock_after H K s l in
  public_opouts (sk_index s') B = public_opouts (sk_index s) B /\
  (forall outpoints, opouts_by_outputs (sk_index s') B outpoints = opouts_by_outputs (sk_index s) B outpoints) /\
  (forall o, In B (contracts_assigning (sk_index s') [o]) <-> In B (contracts_assigning (sk_index s) [o])) /\
  stash_genesis (sk_stash s') B = stash_genesis (sk_stash s) B.
Proof.
  intros OG H K s l B HC Re Hl s'. pose proof (all_kept H K B s l HC Re Hl) as Kp. fold s' in Kp. pose proof (kp_outs _ _ _ Kp) as E.
  assert (Re' : reachable H K s') by (apply reachable_calls; [exact Re|]; intros c Hc; apply Hl, Hc).
  split; [unfold public_opouts; rewrite E; reflexivity|]. split; [intros o; unfold opouts_by_outputs; rewrite E; reflexivity|].
  split; [|unfold stash_genesis; rewrite (kp_genesis _ _ _ Kp); reflexivity].
  intros o. rewrite !contracts_assigning_spec by (apply (reachable_sound H HC K); assumption).
  split; intros (out & oo & Hx); exists out, oo; revert Hx; cbn; rewrite E; tauto.
Qed.

(** Its bundles: witnesses, known transitions and the operations found in them *)
Theorem C71_bundles : forall (OG : OrdKey GlobalOut) H K s l B bid ws,
  collision_free H -> reachable H K s -> (forall c, In c l -> stock_call_ok H c /\ not_about H B c) ->
  bundle_info (sk_index s) bid = Ok (ws, B) ->
  let s' := stock_after H K s l in
  bundle_info (sk_index s') bid = Ok (ws, B) /\
  stash_bundle (sk_stash s') bid = stash_bundle (sk_stash s) bid /\
  (forall id, bundle_id_for_op (sk_index s') id = Ok bid <-> bundle_id_for_op (sk_index s) id = Ok bid) /\
  (forall id, bundle_id_for_op (sk_index s) id = Ok bid -> transition s' id = transition s id).
Proof.
  intros OG H K s l B bid ws HC Re Hl Eb s'. pose proof (all_kept H K B s l HC Re Hl) as Kp. fold s' in Kp.
  unfold bundle_info in Eb. destruct (mget bid (mi_bundle_witness (sk_index s))) as [x|] eqn:Ew; [|discriminate Eb].
  destruct (mget bid (mi_bundle_contract (sk_index s))) as [y|] eqn:Ec; [|discriminate Eb]. cbn [ok_or rbind] in Eb. apply Ok_inj in Eb.
  injection Eb as -> ->. destruct (kp_bundle _ _ _ Kp bid Ec) as (E1 & E2 & E3 & E4).
  split; [unfold bundle_info; rewrite E2, Ew, E1; reflexivity|]. split; [unfold stash_bundle; rewrite E3; reflexivity|].
  assert (E5 : forall id, bundle_id_for_op (sk_index s') id = Ok bid <-> bundle_id_for_op (sk_index s) id = Ok bid).
  { intros id. specialize (E4 id). unfold bundle_id_for_op.
    destruct (mget id (mi_op_bundle (sk_index s'))), (mget id (mi_op_bundle (sk_index s))); cbn [ok_or] in *; split; intros Q; try discriminate Q;
      apply Ok_inj in Q; subst; first [f_equal; apply Some_inj, E4; reflexivity | discriminate (proj1 E4 eq_refl) | discriminate (proj2 E4 eq_refl)]. }
  split; [exact E5|]. intros id Ei. pose proof (proj2 (E5 id) Ei) as Ei'. unfold transition, of_index, of_stash.
  rewrite Ei, Ei'. cbn. unfold stash_bundle. rewrite E3. reflexivity.
Qed.

(** What could be exported of it can still be exported.  Missing: exports for a secret seal
    (refuted below), witnesses whose status or anchors changed, and that the definitions still
    fit. *)
Theorem C71_export_partial : forall (OG : OrdKey GlobalOut) H K s l B transfer outputs,
  collision_free H -> no_cycles H -> reachable H K s -> (forall c, In c l -> stock_call_ok H c /\ not_about H B c) ->
  let s' := stock_after H K s l in
  own_history s B outputs -> same_witnesses s s' B -> definable (sk_stash s') B ->
  (exists fuel c, consign H K fuel s transfer B outputs None = Some (Ok c)) ->
  (exists fuel c, consign H K fuel s' transfer B outputs None = Some (Ok c)) /\
  (forall id, found_history s' B outputs None id <-> found_history s B outputs None id) /\
  (forall id t, found_history s B outputs None id -> (known_op s' id t <-> known_op s id t)).
Proof.
  intros OG H K s l B transfer outputs HC Nc Re Hl s' Own Sw Df Ex. pose proof (all_kept H K B s l HC Re Hl) as Kp. fold s' in Kp.
  assert (Re' : reachable H K s') by (apply reachable_calls; [exact Re|]; intros c Hc; apply Hl, Hc).
  apply (C63_export OG H K s transfer B outputs None HC Nc Re) in Ex. pose proof (xp_known _ _ _ _ _ _ Ex) as Kn.
  split; [apply (C63_export OG H K s' transfer B outputs None HC Nc Re'), (export_kept H K B s s'); assumption|].
  split; [apply (history_kept B s s' outputs Kp Own Kn)|].
  intros id t Hf. split; intros (bid & Hk); exists bid; apply (known_kept B s s' outputs Kp Own Kn id bid t Hf); exact Hk.
Qed.

(** *** Examples *)

(** Another contract, of a schema of its own, with a transition *)
Definition is_genesis (ty : N) (a : list Assign) : Operation := cn_op OpGenesis ty [] a.
Definition is_trans (ty : N) (a : list Assign) : Operation :=
  cn_op OpTransition 2 [cn_in (op_id bit_hashes (is_genesis ty a))] [Revealed (cn_seal 300 1) RVoid].
Definition is_cons (ty : N) (a : list Assign) (i : IfaceRec) : Consignment :=
  {| c_transfer := true; c_terminals := []; c_genesis := is_genesis ty a;
     c_extensions := []; c_schema := ex_schema ty;
     c_ifaces := [(i, ex_impl 50 ty (if_id i))]; c_supplements := [];
     c_bundles := [cn_wb 40 (cn_bundle bit_hashes [is_trans ty a])];
     c_types := [(1, 11)]; c_scripts := []; c_attachments := []; c_signatures := [] |}.
Definition is_plain : Consignment := is_cons 9 [Revealed (cn_seal 200 0) RVoid] (ex_iface 7 70).
Definition is_calls : list StockCall := [SkAccept is_plain yes_witness; SkSeal (cn_seal 500 5); SkUpdate yes_witness 0].
Definition is_out : list OutSeal := [{| os_layer := Bitcoin; os_method := TapretFirst; os_txid := 102; os_vout := 2 |}].

Example C71_nonvacuous : forall OG : OrdKey GlobalOut,
  collision_free bit_hashes /\ no_cycles bit_hashes /\ reachable bit_hashes cn_merkle tx_payer /\
  (forall c, In c is_calls -> stock_call_ok bit_hashes c /\ not_about bit_hashes cn_cid c) /\
  snd (stock_body bit_hashes cn_merkle (SkAccept is_plain yes_witness) tx_payer) = Ok tt /\
  (exists c, contract_state (sk_state tx_payer) cn_cid = Ok c /\ length (outs_all KDeclarative c) = 3%nat) /\
  (exists ws, bundle_info (sk_index tx_payer) (bundle_id bit_hashes (cn_bundle bit_hashes [cn_first bit_hashes])) = Ok (ws, cn_cid)) /\
  (exists fuel c, consign bit_hashes cn_merkle fuel tx_payer true cn_cid is_out None = Some (Ok c) /\ length (c_bundles c) = 2%nat).
Proof.
  intros OG. split; [apply bit_collision_free|]. split; [apply bit_no_cycles|]. split; [apply tx_payer_reachable|].
  split. { intros c [<-|[<-|[<-|[]]]]; (split; [|cbn [not_about]]); try exact Logic.I; [apply cons_okb_ok|]; vm_compute; (reflexivity || discriminate). }
  split; [vm_compute; reflexivity|].
  split. { eexists. split; vm_compute; reflexivity. }
  split. { eexists. vm_compute. reflexivity. }
  exists 10%nat.
  assert (E : match consign bit_hashes cn_merkle 10 tx_payer true cn_cid is_out None with Some (Ok c) => Nat.eqb (length (c_bundles c)) 2 | _ => false end = true) by (vm_compute; reflexivity).
  destruct (consign _ _ _ _ _ _ _ _) as [[c|e|]|]; try discriminate E. exists c. split; [reflexivity|apply Nat.eqb_eq, E].
Qed.

Lemma accept_reachable {OG : OrdKey GlobalOut} H K c r s s' e : reachable H K s -> stock_call_ok H (SkAccept c r) ->
  accept_body H K c r s = (s', e) -> reachable H K s'.
Proof.
  intros R Oc Ea. pose proof (reachable_more H K s (SkAccept c r) R Oc) as R'. cbn [stock_body] in R'. rewrite Ea in R'. exact R'.
Qed.

(** What C71_export_partial asks for holds here. *)
Example C71_export_example : forall OG : OrdKey GlobalOut, let s' := stock_after bit_hashes cn_merkle tx_payer is_calls in
  own_history tx_payer cn_cid is_out /\ same_witnesses tx_payer s' cn_cid /\ definable (sk_stash s') cn_cid.
Proof.
  intros OG s'. destruct (C71_nonvacuous OG) as (HC & Nc & Re & Hl & _). split; [|split].
  - intros id bid _ Hi. unfold states in *.
    assert (A : map (fun p => mget (snd p) (mi_bundle_contract (sk_index tx_payer))) (mi_op_bundle (sk_index tx_payer)) =
                map (fun _ => Some cn_cid) (mi_op_bundle (sk_index tx_payer))) by (vm_compute; reflexivity).
    exact (ext_in_map A (id, bid) (mget_In _ _ _ Hi)).
  - intros bid w _ (ws & Hw & Hin).
    assert (A : map (fun w => (mget w (ms_witnesses (sk_state s')), mget w (st_witnesses (sk_stash s')))) (flat_map snd (mi_bundle_witness (sk_index tx_payer))) =
                map (fun w => (mget w (ms_witnesses (sk_state tx_payer)), mget w (st_witnesses (sk_stash tx_payer)))) (flat_map snd (mi_bundle_witness (sk_index tx_payer))))
      by (vm_compute; reflexivity).
    assert (Hi : In w (flat_map snd (mi_bundle_witness (sk_index tx_payer)))) by (apply in_flat_map; exists (bid, ws); split; [apply mget_In, Hw|exact Hin]).
    pose proof (ext_in_map A w Hi) as E. cbv beta in E. apply pair_equal_spec in E. exact E.
  - assert (Re' : reachable bit_hashes cn_merkle s') by (apply reachable_calls; [exact Re|]; intros c Hc; apply Hl, Hc).
    assert (E : match consign bit_hashes cn_merkle 10 s' true cn_cid is_out None with Some (Ok _) => true | _ => false end = true) by (vm_compute; reflexivity).
    destruct (consign bit_hashes cn_merkle 10 s' true cn_cid is_out None) as [[c|e|]|] eqn:Ec; try discriminate E.
    assert (X : exportable bit_hashes cn_merkle s' cn_cid is_out None) by (apply (C63_export OG _ _ _ true _ _ _ HC Nc Re'); eauto).
    exact (xp_defined _ _ _ _ _ _ X).
Qed.

(** The same secret seal in two contracts: what could be exported for it can not any more, as
    soon as the stock knows the other contract. *)
Definition is_shared : Consignment := is_cons 9 [Confidential cn_secret 0] (ex_iface 7 70).
Theorem C71_export_refuted : forall OG : OrdKey GlobalOut, exists s s' c B secret,
  reachable bit_hashes cn_merkle s /\ stock_call_ok bit_hashes (SkAccept c yes_witness) /\ op_id bit_hashes (c_genesis c) <> B /\
  accept_body bit_hashes cn_merkle c yes_witness s = (s', Ok tt) /\
  (exists e, consign bit_hashes cn_merkle 10 s true B [] (Some secret) = Some (Ok e)) /\
  forall fuel e, consign bit_hashes cn_merkle fuel s' true B [] (Some secret) <> Some (Ok e).
Proof.
  intros OG.
  assert (Oc : stock_call_ok bit_hashes (SkAccept is_shared yes_witness)) by (apply cons_okb_ok; vm_compute; reflexivity).
  assert (Es : snd (accept_body bit_hashes cn_merkle is_shared yes_witness tx_paid) = Ok tt) by (vm_compute; reflexivity).
  assert (Ex : exists e, consign bit_hashes cn_merkle 10 (fst (accept_body bit_hashes cn_merkle is_shared yes_witness tx_paid)) true cn_cid [] (Some cn_secret) = Some (Err e)).
  { eexists. vm_compute. reflexivity. }
  destruct (accept_body bit_hashes cn_merkle is_shared yes_witness tx_paid) as [s1 e1] eqn:Ea. cbn [fst snd] in Es, Ex. subst e1.
  exists tx_paid, s1, is_shared, cn_cid, cn_secret.
  split; [apply tx_paid_reachable|]. split; [exact Oc|]. split; [vm_compute; discriminate|]. split; [exact Ea|].
  split. { destruct (C62_nonvacuous OG) as (_ & _ & _ & _ & _ & _ & _ & _ & _ & _ & _ & _ & c & s' & E & _). exists c. exact E. }
  destruct Ex as (e & E).
  exact (proj2 (C63_failed OG bit_hashes cn_merkle s1 true true cn_cid [] _ 10 (Err e) bit_collision_free bit_no_cycles (accept_reachable _ _ _ _ _ _ _ tx_paid_reachable Oc Ea) E eq_refl)).
Qed.

(** Another contract with an interface of the same name: the contract is exported with that
    interface, and with its own implementation, which is for another interface. *)
Definition is_named : Consignment := is_cons 9 [Revealed (cn_seal 200 0) RVoid] (ex_iface 2 30).
Theorem C71_iface_refuted : forall OG : OrdKey GlobalOut, exists s s' c B e e',
  reachable bit_hashes cn_merkle s /\ stock_call_ok bit_hashes (SkAccept c yes_witness) /\ op_id bit_hashes (c_genesis c) <> B /\
  accept_body bit_hashes cn_merkle c yes_witness s = (s', Ok tt) /\
  consign bit_hashes cn_merkle 10 s true B [] None = Some (Ok e) /\ consign bit_hashes cn_merkle 10 s' true B [] None = Some (Ok e') /\
  (forall i im, In (i, im) (c_ifaces e) -> im_iface im = if_id i) /\
  (exists i im, In (i, im) (c_ifaces e') /\ im_iface im <> if_id i).
Proof.
  intros OG.
  assert (E1 : match consign bit_hashes cn_merkle 10 tx_payer true cn_cid [] None with Some (Ok e) => forallb (fun p => im_iface (snd p) =? if_id (fst p)) (c_ifaces e) | _ => false end = true)
    by (vm_compute; reflexivity).
  assert (E2 : match consign bit_hashes cn_merkle 10 (fst (accept_body bit_hashes cn_merkle is_named yes_witness tx_payer)) true cn_cid [] None with Some (Ok e) => existsb (fun p => negb (im_iface (snd p) =? if_id (fst p))) (c_ifaces e) | _ => false end = true)
    by (vm_compute; reflexivity).
  assert (Es : snd (accept_body bit_hashes cn_merkle is_named yes_witness tx_payer) = Ok tt) by (vm_compute; reflexivity).
  destruct (accept_body bit_hashes cn_merkle is_named yes_witness tx_payer) as [s1 e1] eqn:Ea. cbn [fst snd] in Es, E2. subst e1.
  destruct (consign bit_hashes cn_merkle 10 tx_payer true cn_cid [] None) as [[e|x|]|] eqn:C1; try discriminate E1.
  destruct (consign bit_hashes cn_merkle 10 s1 true cn_cid [] None) as [[e'|x|]|] eqn:C2; try discriminate E2.
  exists tx_payer, s1, is_named, cn_cid, e, e'.
  split; [apply tx_payer_reachable|]. split; [apply cons_okb_ok; vm_compute; reflexivity|]. split; [vm_compute; discriminate|].
  split; [exact Ea|]. split; [exact C1|]. split; [exact C2|]. split.
  - intros i im Hi. rewrite forallb_forall in E1. specialize (E1 _ Hi). apply N.eqb_eq in E1. exact E1.
  - apply existsb_exists in E2 as ((i & im) & Hi & En). exists i, im. split; [exact Hi|]. apply Bool.negb_true_iff, N.eqb_neq in En. exact En.
Qed.

Print Assumptions C71_state.
Print Assumptions C71_outputs.
Print Assumptions C71_bundles.
Print Assumptions C71_export_partial.
Print Assumptions C71_export_refuted.
Print Assumptions C71_iface_refuted.
