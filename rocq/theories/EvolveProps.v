(** * C66: the state a consignment is validated on is the state which is imported *)
From Verif Require Import Base StM Core Ser HashExists ContainerModel PIndexModel PIndexSpec StateModel
  StateSpec StateProofs StateProps ConsignProps EvolveModel EvolveSpec EvolveProofs.
Local Open Scope N_scope.

(** Giving an operation to a state never fails with an error; *)
Theorem C66_never_refuses : forall (OG : OrdKey GlobalOut) H c ops e, evolve_all H c ops <> Err e.
Proof. intros OG H c ops e. apply evolve_no_err. Qed.

(** it panics exactly when some operation does not fit the schema, as long as no collection
    can get full. *)
Theorem C66_evolves_iff : forall (OG : OrdKey GlobalOut) H schema cid ops,
  list_sum (map (fun x => op_size (oo_operation x)) ops) <= U32MAX ->
  ((exists c, evolve_all H (mc_init schema cid) ops = Ok c) <-> Forall (ord_op_fits schema) ops) /\
  (evolve_all H (mc_init schema cid) ops = Panic <-> ~ Forall (ord_op_fits schema) ops).
Proof.
  intros OG H schema cid ops R. pose proof (evolve_iff H schema cid ops R) as I. split; [exact I|].
  destruct (evolve_all H (mc_init schema cid) ops) as [c|e|] eqn:E.
  - split; [discriminate|]. intros Hn. exfalso. apply Hn, I. eauto.
  - apply evolve_no_err in E. destruct E.
  - split; [|reflexivity]. intros _ Hf. apply I in Hf. destruct Hf as [c Hf]. congruence.
Qed.

(** What can be read then: the allocations of the operations whose witness is not
    archived, and their global state. *)
Theorem C66_allocations_partial : forall (OG : OrdKey GlobalOut) H schema cid ops c k a,
  collision_free H -> ops_sorted ops -> ops_one_witness H ops -> ops_one_status ops ->
  evolve_all H (mc_init schema cid) ops = Ok c ->
  (In a (outs_all k c) <->
   (exists x, In x ops /\ reveals H (oo_operation x) (oo_pub x) k a) /\ given_live ops (oa_witness a)).
Proof. intros OG H schema cid ops c k a. apply evolve_outs. Qed.

Theorem C66_globals : forall (OG : OrdKey GlobalOut) H schema cid ops c ty,
  collision_free H -> ops_sorted ops -> ops_one_status ops ->
  evolve_all H (mc_init schema cid) ops = Ok c ->
  match global_values c ty with
  | None => ~ exists limit, In (ty, limit) (sch_globals schema)
  | Some vs => exists limit, In (ty, limit) (sch_globals schema) /\ len vs <= limit /\
      (forall ord d, In (ord, d) vs ->
         exists x go, In x ops /\ shows H (oo_operation x) (oo_pub x) ty go d /\ stands x go ord) /\
      (len vs < limit -> forall x go d, In x ops -> shows H (oo_operation x) (oo_pub x) ty go d ->
         exists ord, stands x go ord /\ In (ord, d) vs)
  end.
Proof. intros OG H schema cid ops c ty. apply evolve_globals. Qed.

(** The order in which the operations are given does not matter, nor do repetitions. *)
Theorem C66_order_partial : forall (OG : OrdKey GlobalOut) H schema cid ops ops' c c',
  collision_free H -> ops_sorted ops -> ops_one_witness H ops -> ops_one_status ops ->
  (forall x, In x ops <-> In x ops') ->
  evolve_all H (mc_init schema cid) ops = Ok c -> evolve_all H (mc_init schema cid) ops' = Ok c' ->
  c = c'.
Proof. intros OG H schema cid ops ops' c c'. apply evolve_order. Qed.

(** Importing a consignment with a contract which is not known makes the contract answer
    every question as the state does which was given the operations of the consignment, in
    any order. *)
Theorem C66_validated_is_imported_partial : forall (OG : OrdKey GlobalOut) H c r s s' x ops mc,
  collision_free H -> ops_sorted ops -> ops_one_witness H ops ->
  (forall o, In o ops <-> carried H c r o) ->
  mget (op_id H (c_genesis c)) (ms_contracts s) = None ->
  state_call H (StConsignment c r) s = (s', Ok tt) ->
  contract_state s' (op_id H (c_genesis c)) = Ok x ->
  evolve_all H (mc_init (c_schema c) (op_id H (c_genesis c))) ops = Ok mc ->
  reads_alike x mc.
Proof.
  intros OG H c r s s' x ops mc HC HS HW Same Hn E Ex V.
  exact (proj2 (validated_imported H c r s s' x ops mc HC HS HW Same Hn E Ex V)).
Qed.

(** In the order of the consignment this needs no hypothesis on its contents. *)
Theorem C66_imported_as_evolved : forall (OG : OrdKey GlobalOut) H c r s s' x,
  mget (op_id H (c_genesis c)) (ms_contracts s) = None ->
  state_call H (StConsignment c r) s = (s', Ok tt) ->
  contract_state s' (op_id H (c_genesis c)) = Ok x ->
  exists ops mc, (forall o, In o ops <-> carried H c r o) /\
    evolve_all H (mc_init (c_schema c) (op_id H (c_genesis c))) ops = Ok mc /\ reads_alike x mc.
Proof.
  intros OG H c r s s' x Hn E Ex. destruct (import_reads H c r s s' x Hn E Ex) as (mc & V & _ & R & C & _). eauto 6.
Qed.

(** ** A transition under two witnesses *)

(** Given first under an archived witness its allocation is gone, given first under the
    other one it is there. *)
Theorem C66_order_refuted : ~ forall (OG : OrdKey GlobalOut) H schema cid ops ops' c c',
  collision_free H -> ops_sorted ops -> ops_one_status ops -> (forall x, In x ops <-> In x ops') ->
  evolve_all H (mc_init schema cid) ops = Ok c -> evolve_all H (mc_init schema cid) ops' = Ok c' ->
  forall k, outs_all k c = outs_all k c'.
Proof.
  intros HA. set (t := st_trans st_seal).
  set (x := OOTransition t (st_w 8) Archived). set (y := OOTransition t (st_w 9) Tentative).
  assert (E : exists c c', evolve_all (OG := ex_ord) bit_hashes (mc_init (c_schema st_cons) 1) [x; y] = Ok c /\
      evolve_all (OG := ex_ord) bit_hashes (mc_init (c_schema st_cons) 1) [y; x] = Ok c' /\
      (len (outs_all KDeclarative c) =? len (outs_all KDeclarative c')) = false).
  { eexists _, _. split; [vm_compute; reflexivity|]. split; [vm_compute; reflexivity|]. vm_compute. reflexivity. }
  destruct E as (c & c' & E1 & E2 & E3).
  assert (E : outs_all KDeclarative c = outs_all KDeclarative c').
  { apply (HA ex_ord bit_hashes (c_schema st_cons) 1 [x; y] [y; x] c c'); auto.
    - apply bit_collision_free.
    - intros z [<-|[<-|[]]]; split; repeat constructor.
    - intros a b w o o' [<-|[<-|[]]] [<-|[<-|[]]]; unfold x, y, st_w; cbn; intros A B; congruence.
    - intros z. cbn. tauto. }
  rewrite E, N.eqb_refl in E3. discriminate.
Qed.

(** ** A consignment *)

(** A genesis, an extension and a transition spending an output of each, with one global
    state value *)
Definition ev_ext : Operation := cn_op OpExtension 6 [] [Revealed (cn_seal 102 0) RVoid].
Definition ev_trans : Operation :=
  {| op_kind := OpTransition; op_head := 0; op_contract := 1; op_ty := 2; op_nonce := 0; op_meta := [];
     op_globals := [(7, [42])]; op_inputs := [cn_in (op_id bit_hashes cn_genesis); cn_in (op_id bit_hashes ev_ext)];
     op_redeemed := []; op_assigns := [(4, {| ta_kind := KDeclarative; ta_list := [Revealed (cn_seal 103 1) RVoid] |})];
     op_valencies := [] |}.
Definition ev_cons : Consignment :=
  {| c_transfer := true; c_terminals := []; c_genesis := cn_genesis; c_extensions := [ev_ext];
     c_schema := {| sch_id := 5; sch_globals := [(7, 10)]; sch_libs := []; sch_types := [] |};
     c_ifaces := []; c_supplements := []; c_bundles := [cn_wb 8 (cn_bundle bit_hashes [ev_trans])];
     c_types := []; c_scripts := []; c_attachments := []; c_signatures := [] |}.
Definition ev_ops : list OrdOp :=
  [OOTransition ev_trans (st_w 8) Tentative; OOExtension ev_ext (st_w 8) Tentative; OOGenesis cn_genesis].

Example C66_nonvacuous :
  ops_sorted ev_ops /\ ops_one_witness bit_hashes ev_ops /\ ops_one_status ev_ops /\
  Forall (ord_op_fits (c_schema ev_cons)) ev_ops /\
  (forall o, In o ev_ops <-> carried bit_hashes ev_cons st_pending o) /\
  exists s' x mc,
    state_call (OG := ex_ord) bit_hashes (StConsignment ev_cons st_pending) ms_empty = (s', Ok tt) /\
    contract_state s' (op_id bit_hashes cn_genesis) = Ok x /\
    evolve_all (OG := ex_ord) bit_hashes (mc_init (c_schema ev_cons) (op_id bit_hashes cn_genesis)) ev_ops = Ok mc /\
    len (outs_all KDeclarative x) = 3 /\ len (outs_all KDeclarative mc) = 3 /\
    (exists o, global_values x 7 = Some [(o, 42)]).
Proof.
  split; [intros z [<-|[<-|[<-|[]]]]; split; repeat constructor|].
  split.
  { intros a b [<-|[<-|[<-|[]]]] [<-|[<-|[<-|[]]]] E; auto; exfalso; revert E; vm_compute; discriminate. }
  split.
  { intros a b w o o' [<-|[<-|[<-|[]]]] [<-|[<-|[<-|[]]]]; cbn; intros A B; congruence. }
  split.
  { apply Forall_forall. intros z Hz. split.
    - intros ty vals Hin. destruct Hz as [<-|[<-|[<-|[]]]]; cbn in Hin; [|destruct Hin|destruct Hin].
      destruct Hin as [Hin|[]]. injection Hin as <- <-. exists 10. left. reflexivity.
    - intros ty ta no seal st Hin Hn.
      destruct Hz as [<-|[<-|[<-|[]]]]; cbn in Hin; (destruct Hin as [Hin|[]]; injection Hin as <- <-;
        destruct no as [|no]; cbn in Hn; [|destruct no; discriminate]; apply Some_inj in Hn; injection Hn as <- <-;
        eexists {| os_layer := Bitcoin; os_method := TapretFirst; os_txid := _; os_vout := _ |}; cbn; split; [|split; [|split]]; reflexivity). }
  split.
  { intros o. split.
    - intros [<-|[<-|[<-|[]]]].
      + exists (cn_wb 8 (cn_bundle bit_hashes [ev_trans])). split; [left; reflexivity|]. split; [left; reflexivity|]. split; reflexivity.
      + split; [left; reflexivity|]. split; [|reflexivity]. apply extension_witness_spec. vm_compute. reflexivity.
      + reflexivity.
    - destruct o as [g|t w ord|e w ord]; cbn [carried].
      + intros ->. cbn. auto.
      + intros (wb & [<-|[]] & [<-|[]] & -> & E). apply Some_inj in E. subst ord. left. reflexivity.
      + intros ([<-|[]] & Hf & E). apply Some_inj in E. subst ord. apply extension_witness_spec in Hf.
        assert (Ew : extension_witness ev_cons (op_id bit_hashes ev_ext) = Some (st_w 8)) by (vm_compute; reflexivity).
        rewrite Ew in Hf. apply Some_inj in Hf. subst w. cbn. auto. }
  eexists _, _, _. split; [vm_compute; reflexivity|]. split; [vm_compute; reflexivity|]. split; [vm_compute; reflexivity|].
  split; [vm_compute; reflexivity|]. split; [vm_compute; reflexivity|]. eexists. vm_compute. reflexivity.
Qed.

Print Assumptions C66_never_refuses.
Print Assumptions C66_evolves_iff.
Print Assumptions C66_allocations_partial.
Print Assumptions C66_globals.
Print Assumptions C66_order_partial.
Print Assumptions C66_validated_is_imported_partial.
Print Assumptions C66_imported_as_evolved.
Print Assumptions C66_order_refuted.
Print Assumptions C66_nonvacuous.
