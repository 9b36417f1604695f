(** * C86: a consignment which can be accepted is accepted *)
From Verif Require Import Base StM Core HashExists Ser MergeSpec ContainerModel ContainerSpec PIndexModel PIndexProofs.
From Verif Require Import StateModel StashModel StashSpec StashProofs StashAgain StashProps StockModel StockProofs StockAgain StockProps.
From Verif Require Import ConsignSpec ConsignAccept ConsignProps AcceptSpec AcceptProofs AcceptState AcceptStash PIndexSpec.
Local Open Scope N_scope.

(** The list of facts is the one meant by PIndexSpec.v. *)
Theorem facts_spec : forall H c f,
  In f (facts H c) <-> consignment_announces H c f /\ f <> FContract (contract_of H c).
Proof. exact facts_In. Qed.

Lemma fits_after H K l : collision_free H -> (forall c, In c l -> call_ok H c) ->
  good H (stash_after H K st_empty l) /\ fits (stash_after H K st_empty l).
Proof.
  intros HC Hc. apply (calls_keep (careful H) H K (fun s => good H s /\ fits s)).
  - intros a b U [G F]. split; [eapply good_kept; eassumption|eapply fits_kept; eassumption].
  - intros a id t [[F G1 G2 G3] Fi]. split; [|exact Fi]. constructor; try assumption. destruct F; constructor; assumption.
  - intros c Hin. apply Hc in Hin. destruct c; simpl in *; auto.
    split; [apply Hin|]. split; [apply Hin|]. intros wb p Hw Hp. eapply co_bundles; eauto.
  - split; [apply good_empty|]. intros id b E. discriminate.
Qed.

(** Whatever calls were made before: if a consignment is refused, it is for one of the reasons
    of AcceptSpec.v, which the error names; and a panic has one of the given causes.  [c'] is
    the consignment with the seals revealed which the stash remembers. *)
Theorem C86_reasons : forall (OG : OrdKey GlobalOut) H K s c r c',
  collision_free H -> reachable H K s -> stock_call_ok H (SkAccept c r) ->
  resolve_secrets H (sk_stash s) c = Ok c' ->
  match snd (accept_body H K c r s) with
  | Ok _ => True
  | Err e => refused H K r s c' e
  | Panic => breaks H s c'
  end.
Proof.
  intros OG H K s c r c' HC (l & Hl & ->) Co Er. set (s := stock_after H K sk_empty l) in *.
  assert (Gs : good H (sk_stash s) /\ fits (sk_stash s)).
  { destruct (after_moved H K l sk_empty) as (_ & _ & lh & Eh & Ph). unfold s. rewrite Eh. apply fits_after; [exact HC|].
    eapply stash_of_ok; eassumption. }
  apply (resolve_ok _ _ _ _ _ Co) in Er as Co'. destruct Co' as (Co' & _).
  rewrite accept_split, Er. cbn [state_call index_call].
  pose proof (state_runs H c' r (sk_state s)) as R1.
  destruct (update_from_consignment H c' r (sk_state s)) as [st [u|e|]]; [|exact R1|].
  2:{ cbn. unfold breaks. tauto. }
  pose proof (index_runs H c' (sk_index s)) as R2.
  destruct (pindex_consignment H c' (sk_index s)) as [ix [u2|e|]]; [|exact R2|left; exact R2].
  pose proof (stash_runs H HC K c' Co' (sk_stash s) (proj1 Gs) (proj2 Gs)) as R3.
  destruct (consume_consignment H K c' (sk_stash s)) as [sh [u3|e|]]; [exact Logic.I|exact R3|].
  cbn. unfold breaks. tauto.
Qed.

(** A consignment in order, for which there is room and which agrees with what is known, is
    accepted.  Missing for C86: the last condition, see [C86_accepted_refuted]. *)
Theorem C86_accepted_partial : forall (OG : OrdKey GlobalOut) H K s c r c',
  collision_free H -> reachable H K s -> stock_call_ok H (SkAccept c r) ->
  resolve_secrets H (sk_stash s) c = Ok c' -> passes H K r s c' -> agrees H K s c' ->
  snd (accept_body H K c r s) = Ok tt.
Proof.
  intros OG H K s c r c' HC Re Co Er P A. pose proof (C86_reasons OG H K s c r c' HC Re Co Er) as R.
  destruct P as [P1 P2 P3 P4 P5 P6 P7 P8 P9], A as [A1 A2 A3 A4].
  destruct (snd (accept_body H K c r s)) as [[]|e|]; [reflexivity|exfalso ..].
  - destruct e as [e|e|e|x y| |]; cbn [refused] in R; try contradiction.
    + destruct e as [|e|e|e| |x|x|x|x|x|x|w]; cbn in R; try contradiction.
      * destruct R as (wb & old & Hw & Eo & T1 & T2 & _). exact (A3 wb old Hw Eo T1 T2).
      * destruct R as (w & a & b & old & anc & Hh & Eo & Ea & Ee). destruct (A4 _ _ _ _ _ Hh Eo Ea) as [B1 B2].
        destruct e; [exact (Ee B1)|exact (Ee B2)].
      * destruct R as (w & a & b & Hh & Em). exact (P6 _ _ _ Hh Em).
    + destruct e; cbn in R; try contradiction. destruct R as (E & wb & Hw & <-). exact (P5 wb Hw E).
    + destruct e; cbn in R; try contradiction.
      * destruct R as (_ & Na & Hs & Ha). exact (Na (A1 _ _ Ha Hs)).
      * destruct R as (Na & Hs & Ha). exact (Na (A2 _ _ _ Ha Hs)).
  - unfold breaks in R. tauto.
Qed.

(** *** Deciding the conditions for given stocks *)

Lemma or_empty_bound {K A} `{OrdKey K} (m : omap K (list A)) k : len (or_empty (mget k m)) <= total (fun p => len (snd p)) m.
Proof.
  induction m as [|[k' l] m IH]; [cbn; unfold len; cbn; lia|]. rewrite total_cons. cbn [mget snd].
  destruct (keqb k k'); cbn [or_empty]; lia.
Qed.
Lemma count_le {A} (f : A -> bool) l : count f l <= len l.
Proof. induction l as [|x l IH]; [rewrite count_nil; lia|]. rewrite count_cons, len_cons. destruct (f x); lia. Qed.

Lemma index_room_small s cid l :
  len (mi_contracts s) + len (mi_op_bundle s) + len (mi_bundle_contract s) + len (mi_bundle_witness s) + len (mi_terminals s) +
  len (outs_known s cid) + total (fun p : N * list WitnessId => len (snd p)) (mi_bundle_witness s) +
  total (fun p : N * list Opout => len (snd p)) (mi_terminals s) +
  total (fun p : OutSeal * list Opout => len (snd p)) (outs_known s cid) + len l <= 254 -> index_room s cid l.
Proof.
  intros L. constructor; try (unfold U8MAX, U24MAX; intros;
    try match goal with |- context [count ?f l] => pose proof (count_le f l) end).
  - lia.
  - lia.
  - lia.
  - lia.
  - lia.
  - lia.
  - pose proof (or_empty_bound (mi_bundle_witness s) bid). unfold omap, oset in *. lia.
  - pose proof (or_empty_bound (mi_terminals s) sec). unfold omap, oset in *. lia.
  - pose proof (or_empty_bound (outs_known s cid) out). unfold omap, oset in *. lia.
Qed.

Lemma state_room_small {OG : OrdKey GlobalOut} H s c :
  let cs := match mget (contract_of H c) (ms_contracts s) with Some cs => cs | None => cs_new (c_schema c) 0 end in
  mget (contract_of H c) (ms_contracts s) = Some cs \/ ms_contracts s = [] ->
  len (ms_contracts s) + len (ms_witnesses s) + len (published H c) +
  total (fun p : N * MemGlobal => len (mg_known (snd p))) (cs_global cs) +
  total (fun x => globals_in (snd x)) (published H c) + total (fun x => outputs_in (snd x)) (published H c) +
  len (cs_rights cs) + len (cs_fungibles cs) + len (cs_data cs) + len (cs_attach cs) <= 254 -> state_room H s c.
Proof.
  intros cs Hc L. constructor.
  - unfold U8MAX. intros _. lia.
  - unfold U32MAX. lia.
  - intros ty. unfold globals_known, U32MAX. destruct Hc as [Ec|E0].
    + rewrite Ec. assert (X : len (match mget ty (cs_global cs) with Some g => mg_known g | None => [] end) <=
        total (fun p : N * MemGlobal => len (mg_known (snd p))) (cs_global cs)); [|unfold omap, oset, Outputs in *; lia].
      clear. induction (cs_global cs) as [|[k g] m IH]; [cbn; unfold len; cbn; lia|]. rewrite total_cons. cbn [mget snd].
      destruct (keqb ty k); lia.
    + rewrite E0. cbn [mget]. unfold len at 1. cbn [length]. lia.
  - intros k. unfold outputs_known, U32MAX. destruct Hc as [Ec|E0].
    + rewrite Ec. destruct k; cbn [cs_outs]; lia.
    + rewrite E0. cbn [mget]. unfold len at 1. cbn [length]. lia.
Qed.

Lemma stash_room_small s c :
  len (st_geneses s) + len (st_extensions s) + len (c_extensions c) + len (st_bundles s) +
  total (fun wb => len (anchored_bundles (wb_bundles wb))) (c_bundles c) + len (st_witnesses s) + len (c_bundles c) +
  len (st_attachments s) + len (c_attachments c) + len (st_types s) + len (c_types c) + len (st_libs s) + len (c_scripts c) +
  len (st_schemata s) + len (st_ifaces s) + len (k_ifaces (kit_of c)) + len (k_impls (kit_of c)) +
  total (fun p : N * SchemaIfaces => len (si_impls (snd p))) (st_schemata s) +
  len (st_suppl s) + len (c_supplements c) + total (fun p : ContentId * list SupplRec => len (snd p)) (st_suppl s) <= 254 -> stash_room s c.
Proof.
  intros L. constructor.
  - unfold U8MAX. lia.
  - unfold U32MAX. lia.
  - unfold U32MAX. lia.
  - unfold U32MAX. lia.
  - unfold U16MAX. lia.
  - unfold room_for, U24MAX, U16MAX, U8MAX. cbn [k_types k_scripts k_schemata kit_of].
    replace (len [c_schema c]) with 1 by reflexivity. lia.
  - intros id. unfold U8MAX.
    assert (X : len (match mget id (st_schemata s) with Some si => si_impls si | None => [] end) <=
      total (fun p : N * SchemaIfaces => len (si_impls (snd p))) (st_schemata s)); [|unfold omap, oset, Outputs in *; lia].
    clear. induction (st_schemata s) as [|[k g] m IH]; [cbn; unfold len; cbn; lia|]. rewrite total_cons. cbn [mget snd].
    destruct (keqb id k); lia.
  - unfold U8MAX. lia.
  - intros x. unfold U8MAX. pose proof (or_empty_bound (st_suppl s) x).
    pose proof (count_le (fun y => keqb (su_content y) x) (c_supplements c)). unfold omap, oset in *. lia.
Qed.

(** All seals shown name a transaction. *)
Definition seals_named (o : Operation) : bool :=
  forallb (fun p : N * TypedAssigns => forallb (fun a => match revealed_seal a with
     | Some s => match s_txid s with Some _ => true | None => false end | None => true end) (ta_list (snd p))) (op_assigns o).
Lemma named_outputs c : seals_named (c_genesis c) = true -> forallb seals_named (c_extensions c) = true ->
  forallb (fun wb => forallb seals_named (wb_known_transitions wb)) (c_bundles c) = true -> ~ seal_without_output c.
Proof.
  intros G X B (w & o & ty & no & a & s & Hb & (ta & Ht & Hn) & Er & No).
  assert (So : seals_named o = true).
  { rewrite forallb_forall in X, B. destruct Hb as [|e He|wb b id t Hw Hb Ht']; [exact G|apply X, He|].
    specialize (B wb Hw). rewrite forallb_forall in B. apply B. unfold wb_known_transitions. apply in_flat_map.
    exists b. split; [exact Hb|]. apply in_map_iff. exists (id, t). auto. }
  unfold seals_named in So. rewrite forallb_forall in So. specialize (So _ Ht). cbn [snd] in So.
  rewrite forallb_forall in So. specialize (So a (nth_error_In _ _ Hn)). rewrite Er in So.
  destruct (s_txid s) as [t|] eqn:Et; [|discriminate].
  destruct (assign_output w s) as [out|] eqn:Eo.
  - apply assign_output_spec in Eo. exact (No out Eo).
  - destruct w; unfold assign_output, try_to_output_seal, to_output_seal in Eo; rewrite Et in Eo; discriminate Eo.
Qed.

Lemma no_globals {OG : OrdKey GlobalOut} H s c : forallb (fun x : OpWitness * Operation => match op_globals (snd x) with [] => true | _ => false end) (published H c) = true ->
  ~ undeclared_global H s c.
Proof.
  intros E (x & ty & vals & Hx & Hv & _). rewrite forallb_forall in E. specialize (E x Hx). destruct (op_globals (snd x)); [destruct Hv|discriminate].
Qed.

(** The consignment used as an example for C34, and the same with whole transactions *)
Definition ac_cons : Consignment := cn_cons bit_hashes [cn_other] cn_a.
Definition ac_whole : Consignment :=
  set_bundles ac_cons
    (map (fun wb => {| wb_witness := {| xw_layer := xw_layer (wb_witness wb);
                                        xw_pub := PwTx {| tx_txid := pw_txid (xw_pub (wb_witness wb)); tx_body := 0 |} |};
                       wb_bundles := wb_bundles wb |}) (c_bundles ac_cons)).
Definition ac_stock {OG : OrdKey GlobalOut} : Stock := stock_after bit_hashes cn_merkle sk_empty [SkAccept ac_cons yes_witness].
Definition ac_stock_whole {OG : OrdKey GlobalOut} : Stock := stock_after bit_hashes cn_merkle sk_empty [SkAccept ac_whole yes_witness].

Lemma ac_reachable {OG : OrdKey GlobalOut} : reachable bit_hashes cn_merkle ac_stock /\ reachable bit_hashes cn_merkle ac_stock_whole.
Proof. split; eexists; (split; [|reflexivity]); intros c [<-|[]]; apply cons_okb_ok; vm_compute; reflexivity. Qed.

Lemma ac_passes {OG : OrdKey GlobalOut} s : s = ac_stock \/ s = ac_stock_whole -> passes bit_hashes cn_merkle yes_witness s ac_cons.
Proof.
  intros Hs. constructor.
  - apply named_outputs; vm_compute; reflexivity.
  - apply no_globals. vm_compute. reflexivity.
  - intros (wb & t & o & Hw & Eb & _). destruct Hw as [<-|[<-|[]]]; discriminate Eb.
  - intros im Hin. vm_compute in Hin. destruct Hin as [<-|[]]. split; left; eexists; (split; [left; reflexivity|reflexivity]).
  - discriminate.
  - discriminate.
  - apply state_room_small; [left; destruct Hs as [->| ->]; vm_compute; reflexivity|].
    destruct Hs as [->| ->]; vm_compute; discriminate.
  - apply index_room_small. destruct Hs as [->| ->]; vm_compute; discriminate.
  - apply stash_room_small. destruct Hs as [->| ->]; vm_compute; discriminate.
Qed.

(** The stock has the contract already; the hypotheses of [C86_accepted_partial] hold. *)
Example C86_accepted_nonvacuous : forall OG : OrdKey GlobalOut,
  collision_free bit_hashes /\ reachable bit_hashes cn_merkle ac_stock /\ stock_call_ok bit_hashes (SkAccept ac_cons yes_witness) /\
  resolve_secrets bit_hashes (sk_stash ac_stock) ac_cons = Ok ac_cons /\
  passes bit_hashes cn_merkle yes_witness ac_stock ac_cons /\ agrees bit_hashes cn_merkle ac_stock ac_cons /\
  len (facts bit_hashes ac_cons) = 11.
Proof.
  intros OG. split; [exact bit_collision_free|]. split; [exact (proj1 ac_reachable)|]. split; [apply cons_okb_ok; vm_compute; reflexivity|].
  split; [vm_compute; reflexivity|]. split; [apply ac_passes; left; reflexivity|]. split; [|vm_compute; reflexivity]. constructor.
  - intros bid alt _ Hs. apply mget_In in Hs.
    assert (B : forallb (fun p : N * N => snd p =? contract_of bit_hashes ac_cons) (mi_bundle_contract (sk_index ac_stock)) = true) by (vm_compute; reflexivity).
    rewrite forallb_forall in B. apply N.eqb_eq. exact (B _ Hs).
  - pose (L := flat_map (fun f => match f with FOp x y => [(x, y)] | _ => [] end) (facts bit_hashes ac_cons)).
    assert (F : forall opid b, consignment_announces bit_hashes ac_cons (FOp opid b) -> In (opid, b) L).
    { intros opid b Ha. apply in_flat_map. exists (FOp opid b). split; [|left; reflexivity]. apply facts_spec. split; [exact Ha|discriminate]. }
    assert (B : forallb (fun p : N * N => forallb (fun q : N * N => implb (fst p =? fst q) (snd p =? snd q))
       (L ++ mi_op_bundle (sk_index ac_stock))) L = true) by (vm_compute; reflexivity).
    rewrite forallb_forall in B.
    intros opid bid alt H1 H2. specialize (B _ (F _ _ H1)). rewrite forallb_forall in B.
    assert (Hin : In (opid, alt) (L ++ mi_op_bundle (sk_index ac_stock))).
    { apply in_app_iff. destruct H2 as [H2|H2]; [right; apply mget_In, H2|left; apply F, H2]. }
    specialize (B _ Hin). cbn [fst snd] in B. rewrite N.eqb_refl in B. apply N.eqb_eq in B. symmetry. exact B.
  - intros wb old Hw Eo Ht. exfalso. apply Ht. apply mget_In in Eo.
    assert (B : forallb (fun p : WitnessId * SealWitness => match pw_tx (xw_pub (sw_public (snd p))) with None => true | Some _ => false end)
       (st_witnesses (sk_stash ac_stock)) = true) by (vm_compute; reflexivity).
    rewrite forallb_forall in B. specialize (B _ Eo). cbn [snd] in B. destruct (pw_tx _); [discriminate|reflexivity].
  - intros w a b old anc Hh Eo Ea. apply holds_iff in Hh. destruct Hh as (wb & Hw & <- & Hp).
    assert (B : forallb (fun wb => forallb (fun p : EAnchor * Bundle =>
        match mget (wb_id wb) (st_witnesses (sk_stash ac_stock)) with
        | Some old => match anchor_under (dp_method (ea_dbc (fst p))) (sw_anchors old) with
                      | Some anc => (an_dbc anc =? dp_data (ea_dbc (fst p))) &&
                          match mk_with cn_merkle (ea_mpc (fst p)) (contract_of bit_hashes ac_cons) (bundle_id bit_hashes (snd p)) with
                          | Some x => x =? an_root anc | None => false end
                      | None => true end
        | None => true end) (anchored_iter (wb_bundles wb))) (c_bundles ac_cons) = true) by (vm_compute; reflexivity).
    rewrite forallb_forall in B. specialize (B _ Hw). rewrite forallb_forall in B. specialize (B _ Hp). cbn [fst snd] in B.
    rewrite Eo, Ea in B. apply andb_prop in B as [B1 B2]. split; [apply N.eqb_eq, B1|].
    destruct (mk_with _ _ _ _) as [x|]; [|discriminate]. apply N.eqb_eq in B2. congruence.
Qed.

(** Not every consignment which is in order is accepted: if the witness transactions are known,
    the same consignment naming them by their ids only is refused. *)
Theorem C86_accepted_refuted : forall (OG : OrdKey GlobalOut), exists H K s c r,
  collision_free H /\ reachable H K s /\ stock_call_ok H (SkAccept c r) /\
  resolve_secrets H (sk_stash s) c = Ok c /\ passes H K r s c /\
  snd (accept_body H K c r s) = Err (SkStash (StashWitnessMerge (TxidMismatch 8 8))).
Proof.
  intros OG. exists bit_hashes, cn_merkle, ac_stock_whole, ac_cons, yes_witness.
  split; [exact bit_collision_free|]. split; [exact (proj2 ac_reachable)|]. split; [apply cons_okb_ok; vm_compute; reflexivity|].
  split; [vm_compute; reflexivity|]. split; [apply ac_passes; right; reflexivity|]. vm_compute. reflexivity.
Qed.

Print Assumptions facts_spec.
Print Assumptions C86_reasons.
Print Assumptions C86_accepted_partial.
Print Assumptions C86_accepted_nonvacuous.
Print Assumptions C86_accepted_refuted.
