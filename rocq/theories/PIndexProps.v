(** * The index of the stock: properties C23-C26 *)
From Verif Require Import Base StM Core HashExists ContainerModel PIndexModel PIndexSpec PIndexProofs.
Local Open Scope N_scope.

(** ** C23: indexed operations stay findable *)

(** Whatever the history before and the calls after, successful or not: a bundle which was
    indexed is found for each of its operations, *)
Theorem C23_operations_found : forall H before cid b w s later,
  pindex_bundle H cid b w (index_after H before) = (s, Ok tt) ->
  forall opid t, In (opid, t) (b_known b) ->
    bundle_id_for_op (index_calls H later s) opid = Ok (bundle_id H b).
Proof.
  intros H before cid b w s later E opid t Hin.
  destruct (adds_pindex_bundle H cid b w _ _ _ E (after_wf H before)) as (W & _ & _ & C).
  assert (Hf : states (index_calls H later s) (FOp opid (bundle_id H b))).
  { apply calls_keep; [exact W|reflexivity|]. apply (C tt eq_refl). right. right. right. right.
    exists opid, t. auto. }
  unfold bundle_id_for_op. simpl in Hf. rewrite Hf. reflexivity.
Qed.

(** is resolved to its contract and to every witness it was indexed with, *)
Theorem C23_bundle_info : forall H before cid b w s later,
  pindex_bundle H cid b w (index_after H before) = (s, Ok tt) ->
  exists ws, bundle_info (index_calls H later s) (bundle_id H b) = Ok (ws, cid) /\ In w ws.
Proof.
  intros H before cid b w s later E.
  destruct (adds_pindex_bundle H cid b w _ _ _ E (after_wf H before)) as (W & _ & _ & C).
  assert (H1 : states (index_calls H later s) (FBundle (bundle_id H b) cid)).
  { apply calls_keep; [exact W|reflexivity|]. apply (C tt eq_refl). right; right; left; reflexivity. }
  assert (H2 : states (index_calls H later s) (FWitness (bundle_id H b) w)).
  { apply calls_keep; [exact W|reflexivity|]. apply (C tt eq_refl). right; right; right; left; reflexivity. }
  destruct H2 as (ws & H2 & Hin). exists ws. split; [|exact Hin].
  apply bundle_info_spec. auto.
Qed.

(** and the same holds of everything a consignment or a bundle says, other than of its
    secret seals. *)
Theorem C23_facts_kept : forall H before c s later f,
  index_call H c (index_after H before) = (s, Ok tt) ->
  announces H c f -> is_term f = false -> states (index_calls H later s) f.
Proof.
  intros H before c s later f E Ha Ht.
  destruct (adds_call H c _ _ _ E (after_wf H before)) as (W & _ & _ & C).
  apply calls_keep; [exact W|exact Ht|]. apply (C tt eq_refl). auto.
Qed.

(** Nothing else is ever in an index: whatever it says was said by some call, even one which
    failed. *)
Theorem C23_only_announced : forall H history f,
  states (index_after H history) f -> exists c, In c history /\ announces H c f.
Proof.
  intros H history f Hf. apply calls_sound in Hf; [|apply wf_empty].
  destruct Hf as [Hf|Hf]; [|exact Hf]. exfalso.
  destruct f; simpl in Hf; decompose [ex and] Hf; discriminate.
Qed.

(** Outputs are listed for the outpoint of their seal ... *)
Theorem C23_outputs_partial : forall H before c s later cid out oo,
  index_call H c (index_after H before) = (s, Ok tt) ->
  announces H c (FOut cid out oo) ->
  (* ... if no call ever assigned state of the contract to another seal of that outpoint *)
  (forall c' out' oo', In c' (before ++ c :: later) -> announces H c' (FOut cid out' oo') ->
     os_outpoint out' = os_outpoint out -> out' = out) ->
  exists r, opouts_by_outputs (index_calls H later s) cid [os_outpoint out] = Ok r /\ In oo r.
Proof.
  intros H before c s later cid out oo E Ha HU.
  set (s' := index_calls H later s).
  assert (Es : s' = index_after H (before ++ c :: later)).
  { unfold s', index_after. rewrite index_calls_app. simpl. unfold index_after in E. rewrite E. reflexivity. }
  assert (W : wf s') by (rewrite Es; apply after_wf).
  assert (Hf : states s' (FOut cid out oo)) by (eapply C23_facts_kept; eauto).
  destruct (proj2 (opouts_by_outputs_ok s' cid [os_outpoint out] W)) as [r Hr].
  { split.
    - destruct Hf as (ci & _ & Hc & _). exists ci. exact Hc.
    - intros o [<-|[]]. exists out, oo. auto. }
  exists r. split; [exact Hr|]. destruct Hf as (ci & set & Hc & Hs & Hin).
  assert (HU' : forall o, In o (mkeys (ci_outs ci)) -> os_outpoint o = os_outpoint out -> o = out).
  { intros o Ho Eo. destruct (wf_ci _ W _ _ Hc) as (_ & Hm & Hne).
    unfold mkeys in Ho. apply in_map_iff in Ho. destruct Ho as ([o' os] & <- & Ho). simpl in *.
    apply In_mget in Ho; [|exact Hm]. destruct (Hne _ _ Ho) as [_ Hnil].
    destruct os as [|x os]; [congruence|].
    assert (Hx : states s' (FOut cid o' x)) by (exists ci, (x :: os); simpl; auto).
    rewrite Es in Hx. apply C23_only_announced in Hx. destruct Hx as (c' & Hc' & Hx).
    eapply HU; eauto. }
  destruct (opouts_by_outputs_spec s' cid [os_outpoint out] r ci W Hc) as [_ Hspec]; [|exact Hr|].
  { intros o1 o2 H1 H2 [Eo|[]] E12. rewrite (HU' o1 H1); [|auto]. rewrite (HU' o2 H2); [auto|congruence]. }
  apply Hspec. exists out. split; [left; reflexivity|]. exists ci, set. auto.
Qed.

(** Secret seals are found as terminals as long as later calls succeed. *)
Theorem C23_terminals_partial : forall H before c s later sec oo,
  index_call H c (index_after H before) = (s, Ok tt) ->
  announces H c (FTerm sec oo) ->
  all_succeed H s later ->
  In oo (opouts_by_terminals (index_calls H later s) [sec]).
Proof.
  intros H before c s later sec oo E Ha Hok.
  destruct (adds_call H c _ _ _ E (after_wf H before)) as (W & _ & _ & C).
  apply opouts_by_terminals_spec; [apply calls_wf, W|]. exists sec. split; [left; reflexivity|].
  apply calls_keep_ok; auto. apply (C tt eq_refl). auto.
Qed.

(** *** Examples and the two exceptions *)

Definition ex_op (k : OpKind) (l : list Assign) : Operation :=
  {| op_kind := k; op_head := 0; op_contract := 0; op_ty := 0; op_nonce := 0; op_meta := [];
     op_globals := []; op_inputs := []; op_redeemed := [];
     op_assigns := match l with [] => [] | _ => [(4, {| ta_kind := KDeclarative; ta_list := l |})] end;
     op_valencies := [] |}.
Definition ex_cons (g : Operation) : Consignment :=
  {| c_transfer := false; c_terminals := []; c_genesis := g; c_extensions := []; c_bundles := [];
     c_schema := {| sch_id := 0; sch_globals := []; sch_libs := []; sch_types := [] |};
     c_ifaces := []; c_supplements := []; c_types := []; c_scripts := []; c_attachments := [];
     c_signatures := [] |}.
Definition ex_seal (m : CloseMethod) (v : N) : Seal :=
  {| s_layer := Bitcoin; s_method := m; s_txid := Some 5; s_vout := v; s_blinding := 0 |}.
Definition ex_out (m : CloseMethod) (v : N) : OutSeal :=
  {| os_layer := Bitcoin; os_method := m; os_txid := 5; os_vout := v |}.
Definition ex_bundle (H : Hashes) (t : Operation) : Bundle :=
  {| b_method := OpretFirst; b_inputs := [(0, op_id H t)]; b_known := [(op_id H t, t)] |}.
Definition ex_wit : WitnessId := {| w_layer := Bitcoin; w_txid := 8 |}.

(** A genesis assigning state to two seals: what the index is afterwards *)
Lemma ex_two_seals H m v m' v' : ex_out m v <> ex_out m' v' ->
  let g := ex_op OpGenesis [Revealed (ex_seal m v) RVoid; Revealed (ex_seal m' v') RVoid] in
  let cid := op_id H g in
  index_call H (IxConsignment (ex_cons g)) mi_empty =
  (set_contracts mi_empty
     [(cid, {| ci_public := [];
               ci_outs := minsert (ex_out m' v') [{| oo_op := cid; oo_ty := 4; oo_no := 1 |}]
                            [(ex_out m v, [{| oo_op := cid; oo_ty := 4; oo_no := 0 |}])] |})], Ok tt).
Proof.
  intros Ne g cid.
  assert (Ek : (keqb cid cid) = true) by apply keqb_refl.
  assert (Ec : cmp cid cid = Eq) by (apply cmp_eq; reflexivity).
  cbn [index_call]. unfold pindex_consignment, pindex_genesis, contract_id.
  cbn [ex_cons c_genesis c_extensions c_bundles]. fold cid. clearbody cid.
  unfold register_contract, index_op_assigns, g, ex_op. cbn [op_assigns].
  unfold bind, mfor, ret.
  change (mhas cid (mi_contracts mi_empty)) with false. cbv iota.
  change (cinsert U8MAX cid {| ci_public := []; ci_outs := [] |} (mi_contracts mi_empty))
    with (Some [(cid, {| ci_public := []; ci_outs := [] |})]). cbv iota beta zeta.
  unfold index_assignments, bind, get, ret, fail, extend_terminals.
  cbn [fst snd ta_list mi_contracts set_contracts].
  unfold mhas, mget. rewrite Ek. cbn [enumerate enum_from mfor]. unfold bind, ret. cbn [fst snd].
  cbn [assign_output to_output_seal ex_seal s_txid s_layer s_method s_vout].
  unfold put_out. cbn [mi_contracts set_contracts mget]. rewrite Ek. cbv iota zeta beta.
  cbn [ci_outs mget]. unfold cinsert at 1. cbn [len]. change (len (@nil (OutSeal * oset Opout)) <? U24MAX) with true.
  cbv iota beta. cbn [minsert set_contracts mi_contracts mget ci_public]. rewrite Ec.
  cbn [mget]. rewrite Ek. cbn [ci_outs mget ci_public].
  assert (En : keqb {| os_layer := Bitcoin; os_method := m'; os_txid := 5; os_vout := v' |}
                 {| os_layer := Bitcoin; os_method := m; os_txid := 5; os_vout := v |} = false).
  { apply keqb_neq. intros E. apply Ne. unfold ex_out. congruence. }
  rewrite En. unfold cinsert.
  match goal with |- context [if ?c then Some (minsert _ _ _) else None] => change c with true end.
  cbv iota beta. cbn [set_contracts mi_contracts minsert]. rewrite Ec. reflexivity.
Qed.

(** Two closing methods on one outpoint: only the outputs of one of the seals are found,
    although both were indexed. *)
Theorem C23_outputs_refuted : ~ forall H before c s later cid out oo,
  collision_free H ->
  index_call H c (index_after H before) = (s, Ok tt) ->
  announces H c (FOut cid out oo) ->
  exists r, opouts_by_outputs (index_calls H later s) cid [os_outpoint out] = Ok r /\ In oo r.
Proof.
  intros HA. destruct (ex_intro _ ideal_hashes ideal_collision_free : exists H, collision_free H) as [H HC].
  set (g := ex_op OpGenesis [Revealed (ex_seal OpretFirst 0) RVoid; Revealed (ex_seal TapretFirst 0) RVoid]).
  assert (Ne : ex_out OpretFirst 0 <> ex_out TapretFirst 0) by discriminate.
  pose proof (ex_two_seals H _ _ _ _ Ne) as E. fold g in E. cbv zeta in E.
  destruct (HA H [] (IxConsignment (ex_cons g)) _ [] (op_id H g) (ex_out TapretFirst 0)
              {| oo_op := op_id H g; oo_ty := 4; oo_no := 1 |} HC E) as (r & Hr & Hin).
  - right. left. exists 4, 1%nat, (Revealed (ex_seal TapretFirst 0) RVoid). split.
    + exists {| ta_kind := KDeclarative; ta_list := [Revealed (ex_seal OpretFirst 0) RVoid;
                Revealed (ex_seal TapretFirst 0) RVoid] |}. split; [left; reflexivity|reflexivity].
    + left. exists (ex_seal TapretFirst 0), (ex_out TapretFirst 0). split; [reflexivity|].
      split; [|reflexivity]. unfold seal_output. simpl. auto.
  - clear E HA. cbn [index_calls fold_left] in Hr. set (cid := op_id H g) in *. clearbody cid.
    unfold opouts_by_outputs in Hr. cbn [mi_contracts set_contracts mget] in Hr.
    rewrite keqb_refl in Hr. cbn [ok_or rbind ci_outs] in Hr.
    vm_compute in Hr. apply Ok_inj in Hr. subst r. destruct Hin as [Hin|[]]. discriminate.
Qed.

(** With distinct outpoints all is well: the hypotheses of the theorems above are met. *)
Example C23_outputs_example : forall H,
  let g := ex_op OpGenesis [Revealed (ex_seal OpretFirst 0) RVoid; Revealed (ex_seal TapretFirst 1) RVoid] in
  let cid := op_id H g in
  exists s r, index_call H (IxConsignment (ex_cons g)) (index_after H []) = (s, Ok tt) /\
    opouts_by_outputs s cid [{| xo_layer := Bitcoin; xo_txid := 5; xo_vout := 1 |}] = Ok r /\
    In {| oo_op := cid; oo_ty := 4; oo_no := 1 |} r.
Proof.
  intros H g cid. assert (Ne : ex_out OpretFirst 0 <> ex_out TapretFirst 1) by discriminate.
  pose proof (ex_two_seals H _ _ _ _ Ne) as E. fold g in E. cbv zeta in E. fold cid in E.
  eexists. exists [{| oo_op := cid; oo_ty := 4; oo_no := 1 |}]. split; [exact E|].
  split; [|left; reflexivity]. clear E. clearbody cid.
  unfold opouts_by_outputs. cbn [mi_contracts set_contracts mget]. rewrite keqb_refl. reflexivity.
Qed.

(** Filling the entry of a secret seal *)
Lemma fill_terminals sec opid ty : forall k n set s,
  length set = n -> ssorted set -> (forall x, In x set -> oo_no x < N.of_nat n) ->
  (n + k <= 255)%nat ->
  exists set', length set' = (n + k)%nat /\
    mfor (fun p : nat * Assign =>
            match snd p with
            | Confidential seal _ | ConfidentialSeal seal _ => add_terminal seal (opout opid ty (fst p))
            | _ => ret tt
            end) (enum_from n (repeat (ConfidentialSeal sec RVoid) k)) (set_terminals s [(sec, set)])
    = (set_terminals s [(sec, set')], Ok tt).
Proof.
  induction k as [|k IH]; intros n set s Hl Hs Hb Hk; simpl.
  - exists set. split; [lia|reflexivity].
  - assert (Hadd : add_terminal sec (opout opid ty n) (set_terminals s [(sec, set)]) =
                   (set_terminals s [(sec, sinsert (opout opid ty n) set)], Ok tt)).
    { unfold add_terminal, cpush, cinsert. cbn [mi_terminals set_terminals mget mremove filter fst negb].
      unfold mremove. cbn [filter fst]. rewrite keqb_refl. cbn [negb].
      assert (Hlt : (len set <? U8MAX) = true) by (apply N.ltb_lt; unfold len, U8MAX; lia).
      rewrite Hlt. reflexivity. }
    unfold bind at 1. rewrite Hadd.
    assert (Hnin : smem (opout opid ty n) set = false).
    { apply smem_false. intros Hin. apply Hb in Hin. cbn in Hin. lia. }
    destruct (IH (S n) (sinsert (opout opid ty n) set) s) as (set' & Hl' & Hm).
    + rewrite length_sinsert by exact Hs. rewrite Hnin. lia.
    + apply sinsert_sorted, Hs.
    + intros x Hx. apply In_sinsert in Hx. destruct Hx as [->|Hx]; [cbn; lia|]. apply Hb in Hx. lia.
    + lia.
    + exists set'. split; [lia|exact Hm].
Qed.

(** The index of a contract with one bundle, whose only transition assigns 255 outputs to
    one secret seal *)
Definition ex_full (H : Hashes) : Operation := ex_op OpTransition (repeat (ConfidentialSeal 7 RVoid) 255).
Lemma ex_full_index H : let g := ex_op OpGenesis [] in let cid := op_id H g in
  let b := ex_bundle H (ex_full H) in
  exists set, length set = 255%nat /\
  index_after H [IxConsignment (ex_cons g)] = set_contracts mi_empty [(cid, {| ci_public := []; ci_outs := [] |})] /\
  pindex_bundle H cid b ex_wit (index_after H [IxConsignment (ex_cons g)]) =
   ({| mi_op_bundle := [(op_id H (ex_full H), bundle_id H b)]; mi_bundle_contract := [(bundle_id H b, cid)];
       mi_bundle_witness := [(bundle_id H b, [ex_wit])];
       mi_contracts := [(cid, {| ci_public := []; ci_outs := [] |})]; mi_terminals := [(7, set)] |}, Ok tt).
Proof.
  intros g cid b.
  assert (E0 : index_after H [IxConsignment (ex_cons g)] =
               set_contracts mi_empty [(cid, {| ci_public := []; ci_outs := [] |})]).
  { unfold index_after, index_calls. cbn [fold_left index_call]. unfold pindex_consignment, pindex_genesis, contract_id.
    cbn [ex_cons c_genesis c_extensions c_bundles]. fold cid. reflexivity. }
  rewrite E0. clear E0. set (opid := op_id H (ex_full H)).
  assert (Ek : keqb cid cid = true) by apply keqb_refl.
  set (s0 := {| mi_op_bundle := [(opid, bundle_id H b)]; mi_bundle_contract := [(bundle_id H b, cid)];
       mi_bundle_witness := [(bundle_id H b, [ex_wit])];
       mi_contracts := [(cid, {| ci_public := []; ci_outs := [] |})]; mi_terminals := [] |}).
  assert (HX : exists set, length set = 255%nat /\
            index_op_assigns cid opid (Some ex_wit) (ex_full H) s0 = (set_terminals s0 [(7, set)], Ok tt)).
  { destruct (fill_terminals 7 opid 4 254 1 [opout opid 4 0] s0) as (set & Hl & Hm).
    - reflexivity.
    - apply ssorted_one.
    - intros x [<-|[]]. cbn. lia.
    - lia.
    - exists set. split; [exact Hl|].
      unfold index_op_assigns, ex_full, ex_op.
      assert (Er : repeat (ConfidentialSeal 7 RVoid) 255 =
                   ConfidentialSeal 7 RVoid :: repeat (ConfidentialSeal 7 RVoid) 254) by reflexivity.
      rewrite Er. cbn [op_assigns mfor fst snd ta_list]. unfold index_assignments.
      unfold bind, get, ret. rewrite <- Er.
      cbn [mi_contracts s0]. unfold mhas. cbn [mget]. rewrite Ek.
      assert (Hnone : forall n k s, mfor (fun p : nat * Assign =>
          match snd p with
          | ConfidentialState seal _ | Revealed seal _ =>
              match assign_output (Some ex_wit) seal with
              | Some out => put_out cid out (opout opid 4 (fst p))
              | None => panic
              end
          | _ => fun s => (s, Ok tt)
          end) (enum_from n (repeat (ConfidentialSeal 7 RVoid) k)) s = (s, Ok tt)).
      { clear. intros n k s. revert n. induction k as [|k IH]; intros n; [reflexivity|].
        cbn [repeat enum_from mfor]. unfold bind. cbn [snd]. apply IH. }
      unfold enumerate. rewrite Hnone. unfold extend_terminals, enumerate.
      rewrite Er. cbn [enum_from mfor]. unfold bind at 1. cbn [fst snd].
      unfold add_terminal at 1. cbn [mi_terminals s0 mget mremove filter].
      unfold cinsert.
      match goal with |- context [if ?c then Some (minsert 7 _ _) else None] => change c with true end.
      cbv iota beta. cbn [minsert]. rewrite Hm. reflexivity. }
  destruct HX as (set & Hl & HX). exists set. split; [exact Hl|]. split; [reflexivity|].
  unfold pindex_bundle. cbn [b_known ex_bundle b mfor]. fold opid.
  set (s1 := {| mi_op_bundle := []; mi_bundle_contract := [(bundle_id H b, cid)];
       mi_bundle_witness := [(bundle_id H b, [ex_wit])];
       mi_contracts := [(cid, {| ci_public := []; ci_outs := [] |})]; mi_terminals := [] |}).
  assert (E1 : register_bundle (bundle_id H b) ex_wit cid
                 (set_contracts mi_empty [(cid, {| ci_public := []; ci_outs := [] |})]) = (s1, Ok true))
    by reflexivity.
  assert (E2 : register_operation opid (bundle_id H b) s1 = (s0, Ok true)) by reflexivity.
  unfold bind. rewrite E1. cbn [fst snd]. rewrite E2, HX. reflexivity.
Qed.

(** A further bundle assigning one output to the seal *)
Lemma ex_overflow H cid b t2 set :
  length set = 255%nat ->
  op_id H t2 <> op_id H (ex_full H) -> bundle_id H (ex_bundle H t2) <> bundle_id H b ->
  t2 = ex_op OpTransition [ConfidentialSeal 7 RVoid] ->
  exists s, index_call H (IxBundle cid (ex_bundle H t2) ex_wit)
   {| mi_op_bundle := [(op_id H (ex_full H), bundle_id H b)]; mi_bundle_contract := [(bundle_id H b, cid)];
      mi_bundle_witness := [(bundle_id H b, [ex_wit])];
      mi_contracts := [(cid, {| ci_public := []; ci_outs := [] |})]; mi_terminals := [(7, set)] |} =
   (s, Err IndexFull) /\ mi_terminals s = [].
Proof.
  intros Hl Hop Hb Et. cbn [index_call]. unfold pindex_bundle.
  set (b2 := ex_bundle H t2) in *. set (bid2 := bundle_id H b2) in *. set (bid := bundle_id H b) in *.
  cbn [b_known ex_bundle b2 mfor]. set (opid := op_id H (ex_full H)) in *. set (opid2 := op_id H t2) in *.
  clearbody opid opid2 bid bid2. subst t2.
  assert (Ek : keqb bid2 bid = false) by (apply keqb_neq, Hb).
  assert (Ek1 : keqb opid2 opid = false) by (apply keqb_neq, Hop).
  assert (Ek' : keqb cid cid = true) by apply keqb_refl.
  set (s := {| mi_op_bundle := [(opid, bid)]; mi_bundle_contract := [(bid, cid)];
      mi_bundle_witness := [(bid, [ex_wit])];
      mi_contracts := [(cid, {| ci_public := []; ci_outs := [] |})]; mi_terminals := [(7, set)] |}).
  set (s1 := {| mi_op_bundle := [(opid, bid)]; mi_bundle_contract := minsert bid2 cid [(bid, cid)];
      mi_bundle_witness := minsert bid2 [ex_wit] [(bid, [ex_wit])];
      mi_contracts := [(cid, {| ci_public := []; ci_outs := [] |})]; mi_terminals := [(7, set)] |}).
  set (s2 := {| mi_op_bundle := minsert opid2 bid2 [(opid, bid)];
      mi_bundle_contract := minsert bid2 cid [(bid, cid)];
      mi_bundle_witness := minsert bid2 [ex_wit] [(bid, [ex_wit])];
      mi_contracts := [(cid, {| ci_public := []; ci_outs := [] |})]; mi_terminals := [(7, set)] |}).
  assert (E1 : register_bundle bid2 ex_wit cid s = (s1, Ok true)).
  { unfold register_bundle, push_witness, bind, get, ret, put, s. cbn [mi_bundle_contract mi_bundle_witness mget].
    rewrite Ek. cbv beta iota.
    match goal with |- context [if ?c then match cpush _ _ _ with _ => _ end else _] => change c with true end.
    cbn [mi_bundle_witness mget]. rewrite Ek.
    match goal with |- context [cpush ?m ?w ?l] => change (cpush m w l) with (Some [ex_wit]) end. cbv beta iota.
    unfold cinsert, mhas. cbn [mi_bundle_contract mi_bundle_witness set_bundle_witness mget].
    rewrite Ek. reflexivity. }
  assert (E2 : register_operation opid2 bid2 s1 = (s2, Ok true)).
  { unfold register_operation, bind, get, ret, put, s1, mhas. cbn [mi_op_bundle mget].
    rewrite Ek1. reflexivity. }
  unfold bind. rewrite E1. cbn [fst snd]. rewrite E2. clear E1 E2 s s1.
  unfold index_op_assigns, ex_op. cbn [op_assigns mfor fst snd ta_list].
  unfold index_assignments, bind, get, ret, fail. cbn [mi_contracts s2]. unfold mhas. cbn [mget]. rewrite Ek'.
  cbv iota beta. cbn [enumerate enum_from mfor fst snd]. unfold bind, ret. cbn [fst snd].
  unfold extend_terminals. cbn [enumerate enum_from mfor fst snd]. unfold bind, ret. cbn [fst snd].
  unfold add_terminal. cbn [mi_terminals mget s2]. change (keqb 7 7) with true. cbv iota zeta.
  unfold cpush. replace (len set <? U8MAX) with false.
  2: { symmetry. apply N.ltb_ge. unfold len, U8MAX. rewrite Hl. lia. }
  cbv iota. eexists. split; reflexivity.
Qed.

(** One more output assigned to that seal: the call fails and the 255 outputs indexed
    before are no longer found. *)
Theorem C23_terminals_refuted : ~ forall H before c s later sec oo,
  collision_free H ->
  index_call H c (index_after H before) = (s, Ok tt) ->
  announces H c (FTerm sec oo) ->
  In oo (opouts_by_terminals (index_calls H later s) [sec]).
Proof.
  intros HA. destruct (ex_intro _ ideal_hashes ideal_collision_free : exists H, collision_free H) as [H HC].
  destruct (ex_full_index H) as (set & Hl & _ & E).
  set (g := ex_op OpGenesis []) in *. set (cid := op_id H g) in *.
  set (b := ex_bundle H (ex_full H)) in *.
  set (t2 := ex_op OpTransition [ConfidentialSeal 7 RVoid]).
  set (b2 := ex_bundle H t2).
  specialize (HA H _ (IxBundle cid b ex_wit) _ [IxBundle cid b2 ex_wit] 7
              {| oo_op := op_id H (ex_full H); oo_ty := 4; oo_no := 0 |} HC E).
  assert (Hop : op_id H t2 <> op_id H (ex_full H)).
  { intros Eo. unfold op_id in Eo. destruct HC as (_ & _ & Hh & _). apply Hh in Eo. discriminate. }
  assert (Hb : bundle_id H b2 <> bundle_id H b).
  { intros Eb. unfold bundle_id in Eb. destruct HC as (_ & _ & _ & Hh). apply Hh in Eb.
    destruct Eb as [_ Eb]. cbn [b_inputs b b2 ex_bundle] in Eb. congruence. }
  assert (HI : In {| oo_op := op_id H (ex_full H); oo_ty := 4; oo_no := 0 |}
                  (opouts_by_terminals
                     (fst (index_call H (IxBundle cid b2 ex_wit)
                       {| mi_op_bundle := [(op_id H (ex_full H), bundle_id H b)]; mi_bundle_contract := [(bundle_id H b, cid)];
       mi_bundle_witness := [(bundle_id H b, [ex_wit])];
       mi_contracts := [(cid, {| ci_public := []; ci_outs := [] |})]; mi_terminals := [(7, set)] |})) [7])).
  { apply HA. right. right. exists (op_id H (ex_full H)), (ex_full H).
    split; [left; reflexivity|]. right. exists 4, 0%nat, (ConfidentialSeal 7 RVoid).
    split; [eexists; split; [left; reflexivity|reflexivity]|]. right. exists 7. split; reflexivity. }
  clear HA E. revert HI. destruct (ex_overflow H cid b t2 set Hl Hop Hb eq_refl) as (s & Es & Et).
  fold b2 in Es. rewrite Es. unfold opouts_by_terminals. cbn [fst]. rewrite Et. intros [].
Qed.

Print Assumptions C23_operations_found.
Print Assumptions C23_bundle_info.
Print Assumptions C23_facts_kept.
Print Assumptions C23_only_announced.
Print Assumptions C23_outputs_partial.
Print Assumptions C23_outputs_refuted.
Print Assumptions C23_terminals_partial.
Print Assumptions C23_terminals_refuted.

(** The hypotheses of the theorems above hold of a contract with a bundle of 255 outputs. *)
Example C23_example : forall H,
  let cid := op_id H (ex_op OpGenesis []) in
  exists s, pindex_bundle H cid (ex_bundle H (ex_full H)) ex_wit
              (index_after H [IxConsignment (ex_cons (ex_op OpGenesis []))]) = (s, Ok tt) /\
    length (opouts_by_terminals s [7]) = 255%nat.
Proof.
  intros H cid. destruct (ex_full_index H) as (set & Hl & _ & E). fold cid in E.
  eexists. split; [exact E|]. unfold opouts_by_terminals. cbn [mi_terminals filter fst existsb].
  change (7 =? 7) with true. cbn [orb flat_map snd]. rewrite app_nil_r.
  assert (W : wf {| mi_op_bundle := [(op_id H (ex_full H), bundle_id H (ex_bundle H (ex_full H)))];
      mi_bundle_contract := [(bundle_id H (ex_bundle H (ex_full H)), cid)];
      mi_bundle_witness := [(bundle_id H (ex_bundle H (ex_full H)), [ex_wit])];
      mi_contracts := [(cid, {| ci_public := []; ci_outs := [] |})]; mi_terminals := [(7, set)] |}).
  { apply (adds_pindex_bundle H _ _ _ _ _ _ E). apply after_wf. }
  assert (S : ssorted set) by (apply (wf_term _ W 7 set); reflexivity).
  replace (sfrom set) with set; [exact Hl|].
  apply ssorted_ext; [exact S|apply sfrom_sorted|]. intros x. rewrite sfrom_In. reflexivity.
Qed.

(** ** C24: an operation is in one bundle, a bundle in one contract *)

(** A bundle known to belong to another contract is refused and nothing changes. *)
Theorem C24_bundle_of_other_contract : forall H s cid cid' b w,
  states s (FBundle (bundle_id H b) cid) -> cid <> cid' ->
  pindex_bundle H cid' b w s = (s, Err (DistinctBundleContract (bundle_id H b) cid cid')).
Proof.
  intros H s cid cid' b w Hs Ne. simpl in Hs.
  unfold pindex_bundle, register_bundle, bind, get, fail. rewrite Hs.
  replace (cid =? cid') with false; [reflexivity|]. symmetry. apply N.eqb_neq, Ne.
Qed.

(** An operation known in another bundle is refused: indexing a bundle with it does not
    succeed, *)
Theorem C24_operation_of_other_bundle : forall H s cid b w opid t bid,
  wf s -> states s (FOp opid bid) -> In (opid, t) (b_known b) -> bid <> bundle_id H b ->
  forall s', pindex_bundle H cid b w s <> (s', Ok tt).
Proof.
  intros H s cid b w opid t bid W Hs Hin Ne s' E.
  destruct (adds_pindex_bundle H cid b w _ _ _ E W) as (W' & _ & K & C).
  assert (H1 : states s' (FOp opid bid)) by (apply K; auto).
  assert (H2 : states s' (FOp opid (bundle_id H b))).
  { apply (C tt eq_refl). right; right; right; right. exists opid, t. auto. }
  simpl in H1, H2. congruence.
Qed.

(** in particular the direct registration reports the bundle present and changes nothing, *)
Theorem C24_register_operation : forall s opid bid bid',
  states s (FOp opid bid) -> bid <> bid' ->
  register_operation opid bid' s = (s, Err (DistinctBundleOp opid bid bid')).
Proof.
  intros s opid bid bid' Hs Ne. simpl in Hs.
  unfold register_operation, bind, get, fail. rewrite Hs.
  replace (bid =? bid') with false; [reflexivity|]. symmetry. apply N.eqb_neq, Ne.
Qed.

(** and no call, successful or not, ever changes an answer already given. *)
Theorem C24_answers_never_change : forall H before later opid bid ws cid bid',
  let s := index_after H before in
  let s' := index_after H (before ++ later) in
  (bundle_id_for_op s opid = Ok bid -> bundle_id_for_op s' opid = Ok bid) /\
  (bundle_info s bid' = Ok (ws, cid) ->
   exists ws', bundle_info s' bid' = Ok (ws', cid) /\ incl ws ws').
Proof.
  intros H before later opid bid ws cid bid' s s'.
  assert (Es : s' = index_calls H later s) by apply index_calls_app.
  assert (W : wf s) by apply after_wf.
  assert (K : forall f, is_term f = false -> states s f -> states s' f).
  { intros f Ht Hf. rewrite Es. apply calls_keep; auto. }
  split.
  - unfold bundle_id_for_op. intros E. destruct (mget opid (mi_op_bundle s)) as [x|] eqn:Eg; [|discriminate].
    apply Ok_inj in E. subst x. specialize (K (FOp opid bid) eq_refl Eg). simpl in K. rewrite K. reflexivity.
  - intros E. apply bundle_info_spec in E. destruct E as [Ew Ec].
    pose proof (K (FBundle bid' cid) eq_refl Ec) as Kc. simpl in Kc.
    assert (Hw : exists w, In w ws).
    { destruct (wf_wit _ W _ _ Ew) as [_ Hne]. destruct ws as [|w ws]; [congruence|]. exists w; left; reflexivity. }
    destruct Hw as [w Hw].
    destruct (K (FWitness bid' w) eq_refl (ex_intro _ ws (conj Ew Hw))) as (ws' & Ew' & _).
    exists ws'. split; [apply bundle_info_spec; auto|].
    intros x Hx. destruct (K (FWitness bid' x) eq_refl (ex_intro _ ws (conj Ew Hx))) as (ws2 & Ew2 & Hin).
    rewrite Ew' in Ew2. apply Some_inj in Ew2. subst ws2. exact Hin.
Qed.

Example C24_example : forall H, collision_free H ->
  let b := ex_bundle H (ex_full H) in
  exists s, states s (FBundle (bundle_id H b) 1) /\ states s (FOp (op_id H (ex_full H)) (bundle_id H b)) /\
    pindex_bundle H 2 b ex_wit s = (s, Err (DistinctBundleContract (bundle_id H b) 1 2)).
Proof.
  intros H _ b.
  set (s := {| mi_op_bundle := [(op_id H (ex_full H), bundle_id H b)]; mi_bundle_contract := [(bundle_id H b, 1)];
      mi_bundle_witness := [(bundle_id H b, [ex_wit])];
      mi_contracts := [(1, {| ci_public := []; ci_outs := [] |})]; mi_terminals := [] |}).
  assert (Hs : states s (FBundle (bundle_id H b) 1)).
  { simpl. rewrite keqb_refl. reflexivity. }
  exists s. split; [exact Hs|]. split; [simpl; rewrite keqb_refl; reflexivity|].
  apply C24_bundle_of_other_contract; [exact Hs|discriminate].
Qed.

Print Assumptions C24_bundle_of_other_contract.
Print Assumptions C24_operation_of_other_bundle.
Print Assumptions C24_register_operation.
Print Assumptions C24_answers_never_change.

(** ** C25: outpoint queries are exact *)

(** The contracts assigning state to some of the outpoints *)
Theorem C25_contracts_sound_complete : forall H history outpoints cid,
  let s := index_after H history in
  In cid (contracts_assigning s outpoints) <->
  exists out oo, In (os_outpoint out) outpoints /\ states s (FOut cid out oo).
Proof. intros H history outpoints cid s. apply contracts_assigning_spec, after_wf. Qed.

(** In terms of what was indexed, when all calls succeeded *)
Theorem C25_contracts_of_history : forall H history outpoints cid,
  all_succeed H mi_empty history ->
  (In cid (contracts_assigning (index_after H history) outpoints) <->
   exists c out oo, In c history /\ In (os_outpoint out) outpoints /\ announces H c (FOut cid out oo)).
Proof.
  intros H history outpoints cid Hok. rewrite C25_contracts_sound_complete. split.
  - intros (out & oo & Ho & Hs). apply C23_only_announced in Hs. destruct Hs as (c & Hc & Ha).
    exists c, out, oo; auto.
  - intros (c & out & oo & Hc & Ho & Ha). exists out, oo. split; [exact Ho|].
    apply calls_ok; [apply wf_empty|exact Hok|]. right; eauto.
Qed.

(** For a single outpoint no contract is listed twice; *)
Theorem C25_contracts_once_partial : forall H history o,
  NoDup (contracts_assigning (index_after H history) [o]).
Proof. intros H history o. apply contracts_assigning_single, after_wf. Qed.

(** for two outpoints it may be. *)
Theorem C25_contracts_once_refuted : ~ forall H history (outpoints : oset Outpoint),
  collision_free H -> ssorted outpoints -> NoDup (contracts_assigning (index_after H history) outpoints).
Proof.
  intros HA. destruct (ex_intro _ ideal_hashes ideal_collision_free : exists H, collision_free H) as [H HC].
  set (g := ex_op OpGenesis [Revealed (ex_seal OpretFirst 0) RVoid; Revealed (ex_seal TapretFirst 1) RVoid]).
  assert (Ne : ex_out OpretFirst 0 <> ex_out TapretFirst 1) by discriminate.
  pose proof (ex_two_seals H _ _ _ _ Ne) as E. fold g in E. cbv zeta in E.
  specialize (HA H [IxConsignment (ex_cons g)] [os_outpoint (ex_out OpretFirst 0); os_outpoint (ex_out TapretFirst 1)] HC).
  unfold index_after, index_calls in HA. cbn [fold_left] in HA. rewrite E in HA. cbn [fst] in HA. clear E.
  set (cid := op_id H g) in *. clearbody cid.
  match type of HA with _ -> NoDup ?l => change l with [cid; cid] in HA end.
  assert (ND : NoDup [cid; cid]) by (apply HA; repeat constructor).
  inversion ND as [|x y Hn]; subst. apply Hn. left; reflexivity.
Qed.

(** The operation outputs at given outpoints: exact when the contract has no two seals
    (one per closing method) at one of the outpoints, *)
Theorem C25_outputs_exact_partial : forall H history cid outpoints r,
  let s := index_after H history in
  (forall out out' oo oo', states s (FOut cid out oo) -> states s (FOut cid out' oo') ->
     In (os_outpoint out) outpoints -> os_outpoint out = os_outpoint out' -> out = out') ->
  opouts_by_outputs s cid outpoints = Ok r ->
  NoDup r /\
  forall oo, In oo r <-> exists out, In (os_outpoint out) outpoints /\ states s (FOut cid out oo).
Proof.
  intros H history cid outpoints r s HU E. assert (W : wf s) by apply after_wf.
  destruct (mget cid (mi_contracts s)) as [ci|] eqn:Ec.
  2: { unfold opouts_by_outputs in E. rewrite Ec in E. discriminate. }
  destruct (opouts_by_outputs_spec s cid outpoints r ci W Ec) as [Sr Hr]; [|exact E|].
  - assert (Hk : forall o, In o (mkeys (ci_outs ci)) -> exists oo, states s (FOut cid o oo)).
    { intros o Ho. destruct (wf_ci _ W _ _ Ec) as (_ & Hm & Hne).
      unfold mkeys in Ho. apply in_map_iff in Ho. destruct Ho as ([o' os] & <- & Ho). simpl in *.
      apply In_mget in Ho; [|exact Hm]. destruct (Hne _ _ Ho) as [_ Hnil].
      destruct os as [|x os]; [congruence|]. exists x, ci, (x :: os). simpl; auto. }
    intros o1 o2 H1 H2 Ho E12. destruct (Hk _ H1) as [x1 K1], (Hk _ H2) as [x2 K2]. eapply HU; eauto.
  - split; [apply ssorted_NoDup, Sr|exact Hr].
Qed.

(** not otherwise: the outputs of one of two seals are missed. *)
Theorem C25_outputs_exact_refuted : ~ forall H history cid outpoints r,
  collision_free H ->
  opouts_by_outputs (index_after H history) cid outpoints = Ok r ->
  forall oo, In oo r <-> exists out, In (os_outpoint out) outpoints /\
                          states (index_after H history) (FOut cid out oo).
Proof.
  intros HA. apply C23_outputs_refuted. intros H before c s later cid out oo HC E Ha.
  assert (Es : index_calls H later s = index_after H (before ++ c :: later)).
  { unfold index_after. rewrite index_calls_app. simpl. unfold index_after in E. rewrite E. reflexivity. }
  assert (Hf : states (index_calls H later s) (FOut cid out oo)).
  { eapply C23_facts_kept; eauto. }
  rewrite Es in *.
  destruct (proj2 (opouts_by_outputs_ok (index_after H (before ++ c :: later)) cid [os_outpoint out] (after_wf H _))) as [r Hr].
  { split.
    - destruct Hf as (ci & _ & Hc & _). exists ci. exact Hc.
    - intros o [<-|[]]. exists out, oo. auto. }
  exists r. split; [exact Hr|]. apply (HA H _ _ _ _ HC Hr). exists out. split; [left; reflexivity|exact Hf].
Qed.

(** When the query answers: the contract is known and each of the outpoints has an output.
    One outpoint without any makes the whole query fail. *)
Theorem C25_outputs_answered : forall H history cid outpoints,
  let s := index_after H history in
  (exists r, opouts_by_outputs s cid outpoints = Ok r) <->
  states s (FContract cid) /\
  forall o, In o outpoints -> exists out oo, os_outpoint out = o /\ states s (FOut cid out oo).
Proof. intros H history cid outpoints s. apply opouts_by_outputs_ok, after_wf. Qed.

(** The outputs at secret seals are exact; *)
Theorem C25_terminals_exact : forall H history terms oo,
  let s := index_after H history in
  In oo (opouts_by_terminals s terms) <-> exists sec, In sec terms /\ states s (FTerm sec oo).
Proof. intros H history terms oo s. apply opouts_by_terminals_spec, after_wf. Qed.

(** no output is ever reported as public. *)
Theorem C25_public_outputs_empty : forall H history cid r,
  public_opouts (index_after H history) cid = Ok r -> r = [].
Proof.
  intros H history cid r. unfold public_opouts, ok_or, rbind.
  destruct (mget cid (mi_contracts (index_after H history))) as [ci|] eqn:Ec; [|discriminate].
  intros E. apply Ok_inj in E. subst r. apply (wf_ci _ (after_wf H history) _ _ Ec).
Qed.

Example C25_example : forall H,
  let g := ex_op OpGenesis [Revealed (ex_seal OpretFirst 0) RVoid; Revealed (ex_seal TapretFirst 1) RVoid] in
  let cid := op_id H g in
  all_succeed H mi_empty [IxConsignment (ex_cons g)] /\
  let s := index_after H [IxConsignment (ex_cons g)] in
  contracts_assigning s [{| xo_layer := Bitcoin; xo_txid := 5; xo_vout := 1 |}] = [cid] /\
  contracts_assigning s [{| xo_layer := Bitcoin; xo_txid := 5; xo_vout := 2 |}] = [] /\
  opouts_by_outputs s cid [{| xo_layer := Bitcoin; xo_txid := 5; xo_vout := 0 |}] =
    Ok [{| oo_op := cid; oo_ty := 4; oo_no := 0 |}] /\
  public_opouts s cid = Ok [].
Proof.
  intros H g cid. assert (Ne : ex_out OpretFirst 0 <> ex_out TapretFirst 1) by discriminate.
  pose proof (ex_two_seals H _ _ _ _ Ne) as E. fold g in E. cbv zeta in E. fold cid in E.
  split; [split; [eexists; exact E|exact I]|]. unfold index_after, index_calls. cbn [fold_left]. rewrite E. clear E.
  cbn [fst]. clearbody cid. split; [reflexivity|]. split; [reflexivity|].
  unfold opouts_by_outputs, public_opouts. cbn [mi_contracts set_contracts mget]. rewrite keqb_refl.
  split; reflexivity.
Qed.

Print Assumptions C25_contracts_sound_complete.
Print Assumptions C25_contracts_of_history.
Print Assumptions C25_contracts_once_partial.
Print Assumptions C25_contracts_once_refuted.
Print Assumptions C25_outputs_exact_partial.
Print Assumptions C25_outputs_exact_refuted.
Print Assumptions C25_outputs_answered.
Print Assumptions C25_terminals_exact.
Print Assumptions C25_public_outputs_empty.

(** ** C26: the same data again (index part) *)

(** While no collection of the index is full, repeating a successful call changes nothing
    and succeeds. *)
Theorem C26_index_again_partial : forall H history c s,
  index_call H c (index_after H history) = (s, Ok tt) -> has_room s ->
  index_call H c s = (s, Ok tt).
Proof. intros H history c s E R. eapply call_idempotent; [apply after_wf|exact E|exact R]. Qed.

(** With a full entry it does: the entry of a secret seal with 255 outputs is dropped when
    the bundle assigning them is indexed again. *)
Theorem C26_index_again_refuted : ~ forall H history c s,
  collision_free H ->
  index_call H c (index_after H history) = (s, Ok tt) -> fst (index_call H c s) = s.
Proof.
  intros HA. destruct (ex_intro _ ideal_hashes ideal_collision_free : exists H, collision_free H) as [H HC].
  destruct (ex_full_index H) as (set & Hl & _ & E).
  specialize (HA H _ (IxBundle _ _ _) _ HC E). clear E.
  apply (f_equal mi_terminals) in HA. cbn [mi_terminals] in HA. revert HA. cbn [index_call].
  set (b := ex_bundle H (ex_full H)). set (cid := op_id H (ex_op OpGenesis [])).
  unfold pindex_bundle. cbn [b_known ex_bundle b mfor fst snd]. fold b.
  generalize (bundle_id H b), (op_id H (ex_full H)), cid. clear - Hl. intros bid opid cid.
  set (s := {| mi_op_bundle := [(opid, bid)]; mi_bundle_contract := [(bid, cid)];
      mi_bundle_witness := [(bid, [ex_wit])];
      mi_contracts := [(cid, {| ci_public := []; ci_outs := [] |})]; mi_terminals := [(7, set)] |}).
  assert (Ek : forall k : N, keqb k k = true) by (intros; apply keqb_refl).
  assert (Ec : forall k : N, cmp k k = Eq) by (intros; apply cmp_refl).
  assert (E1 : register_bundle bid ex_wit cid s = (s, Ok false)).
  { unfold register_bundle, push_witness, bind, get, ret, put, s. cbn [mi_bundle_contract mi_bundle_witness mget].
    rewrite Ek, N.eqb_refl. cbv beta iota.
    match goal with |- context [if ?c then match cpush _ _ _ with _ => _ end else _] => change c with true end.
    cbn [mi_bundle_witness mget]. rewrite Ek.
    match goal with |- context [cpush ?m ?w ?l] => change (cpush m w l) with (Some [ex_wit]) end. cbv beta iota.
    unfold cinsert, mhas. cbn [mi_bundle_contract mi_bundle_witness set_bundle_witness mget minsert].
    rewrite Ek, !Ec. reflexivity. }
  assert (E2 : register_operation opid bid s = (s, Ok false)).
  { unfold register_operation, bind, get, ret, put, s, mhas, cinsert. cbn [mi_op_bundle mget minsert].
    rewrite Ek, N.eqb_refl, Ec. reflexivity. }
  unfold bind. rewrite E1. cbn [fst snd]. rewrite E2. clear E1 E2.
  unfold index_op_assigns, ex_full, ex_op.
  assert (Er : repeat (ConfidentialSeal 7 RVoid) 255 =
               ConfidentialSeal 7 RVoid :: repeat (ConfidentialSeal 7 RVoid) 254) by reflexivity.
  rewrite Er. cbn [op_assigns mfor fst snd ta_list]. unfold index_assignments.
  unfold bind, get, ret. rewrite <- Er.
  cbn [mi_contracts s]. unfold mhas. cbn [mget]. rewrite Ek.
  assert (Hnone : forall n k s, mfor (fun p : nat * Assign =>
      match snd p with
      | ConfidentialState seal _ | Revealed seal _ =>
          match assign_output (Some ex_wit) seal with
          | Some out => put_out cid out (opout opid 4 (fst p))
          | None => panic
          end
      | _ => fun s => (s, Ok tt)
      end) (enum_from n (repeat (ConfidentialSeal 7 RVoid) k)) s = (s, Ok tt)).
  { clear. intros n k s. revert n. induction k as [|k IH]; intros n; [reflexivity|].
    cbn [repeat enum_from mfor]. unfold bind. cbn [snd]. apply IH. }
  unfold enumerate. rewrite Hnone. unfold extend_terminals, enumerate.
  rewrite Er. cbn [enum_from mfor]. unfold bind at 1. cbn [fst snd].
  unfold add_terminal at 1. cbn [mi_terminals s mget]. change (keqb 7 7) with true. cbv iota zeta.
  unfold cpush. replace (len set <? U8MAX) with false.
  2: { symmetry. apply N.ltb_ge. unfold len, U8MAX. rewrite Hl. lia. }
  cbv iota. cbn. discriminate.
Qed.

Example C26_index_example : forall H,
  let g := ex_op OpGenesis [Revealed (ex_seal OpretFirst 0) RVoid; Revealed (ex_seal TapretFirst 1) RVoid] in
  exists s, index_call H (IxConsignment (ex_cons g)) (index_after H []) = (s, Ok tt) /\ has_room s.
Proof.
  intros H g. assert (Ne : ex_out OpretFirst 0 <> ex_out TapretFirst 1) by discriminate.
  pose proof (ex_two_seals H _ _ _ _ Ne) as E. fold g in E. cbv zeta in E.
  eexists. split; [exact E|]. clear E. generalize (op_id H g). intros cid.
  repeat split; cbn [mi_op_bundle mi_bundle_contract mi_bundle_witness mi_contracts mi_terminals set_contracts mi_empty];
    try reflexivity; try discriminate.
  all: apply mget_In in H0; destruct H0 as [H0|[]]; injection H0 as _ <-.
  - reflexivity.
  - intros out os Ho. apply mget_In in Ho. cbn [ci_outs] in Ho. destruct Ho as [Ho|[Ho|[]]];
      injection Ho as _ <-; reflexivity.
Qed.

Print Assumptions C26_index_again_partial.
Print Assumptions C26_index_again_refuted.
