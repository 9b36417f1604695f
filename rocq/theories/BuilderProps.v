(** * Properties of builders: C44, C45 *)
From Verif Require Import Base Core IfaceModel IfaceSpec IfaceProps BuilderModel BuilderSpec BuilderProofs BuilderCalls BuilderComplete.
Local Open Scope N_scope.

(** ** C44: what is put in comes out *)

(** A call on a transition builder succeeds exactly when it asks for something which may be
    put in at this point; then the builder holds this item after the others, and otherwise
    nothing new (a failed call gives no builder). *)
Theorem C44_call X contract tt b l c : t_built X contract tt b l ->
  match t_call X b c with
  | Ok b' => exists i, t_asks X tt l c i /\ allowed X l i /\ t_built X contract tt b' (l ++ [i])
  | _ => forall i, t_asks X tt l c i -> ~ allowed X l i
  end.
Proof.
  intros B. pose proof (t_built_repr _ _ _ _ _ B) as R. destruct (t_call X b c) as [b'|e|] eqn:E.
  - destruct (t_step X contract tt b l c b' R E) as (i & Hi & Ha & _). exists i. split; [exact Hi|]. split; [exact Ha|]. econstructor; eassumption.
  - intros i Hi Ha. destruct (t_can X contract tt b l c i R Hi Ha) as [b' Hb]. congruence.
  - intros i Hi Ha. destruct (t_can X contract tt b l c i R Hi Ha) as [b' Hb]. congruence.
Qed.
Print Assumptions C44_call.

(** The same for a contract builder, where an amount may bring its tag. *)
Theorem C44_contract_call X issuer b l c : c_built X issuer b l ->
  match c_call X b c with
  | Ok b' => exists new, c_asks X l c new /\ allowed_all X l new /\ c_built X issuer b' (l ++ new)
  | _ => forall new, c_asks X l c new -> ~ allowed_all X l new
  end.
Proof.
  intros B. pose proof (c_built_repr _ _ _ _ B) as R. destruct (c_call X b c) as [b'|e|] eqn:E.
  - destruct (c_step X issuer b l c b' R E) as (i & Hi & Ha & _). exists i. split; [exact Hi|]. split; [exact Ha|]. econstructor; eassumption.
  - intros i Hi Ha. destruct (c_can X issuer b l c i R Hi Ha) as [b' Hb]. congruence.
  - intros i Hi Ha. destruct (c_can X issuer b l c i R Hi Ha) as [b' Hb]. congruence.
Qed.
Print Assumptions C44_contract_call.

(** The completed transition has the global values and inputs which were put in, and the
    state assigned to each seal and type is what was put there last, and nothing else.
    Partial: the metadata which was put in is lost, and so is state which was put to a seal
    before other state of the same type; see below. *)
Theorem C44_transition_partial X P order contract tt b l op :
  (forall s, Permutation (order s) s) -> len (fs_owned (bc_schema X)) <= 255 ->
  t_built X contract tt b l -> complete_transition P order b = Ok op ->
  op_kind op = OpTransition /\ op_contract op = contract /\ op_ty op = tt /\ op_nonce op = nonce_of l /\
  shows_items l op /\
  (NoDup (op_inputs op) /\ forall o, In o (op_inputs op) <-> In o (map fst (ins l))) /\
  op_meta op = [] /\ op_valencies op = [] /\ op_redeemed op = [].
Proof.
  intros Ho Hs B. pose proof (t_built_repr _ _ _ _ _ B) as R. unfold complete_transition. intros H. apply rbind_ok in H as (a & Ha & [= <-]). cbn.
  split; [reflexivity|]. split; [apply R|]. split; [apply R|]. split; [apply R|]. split.
  { eapply shown_items; [apply R|exact Ho|exact Hs|exact Ha|reflexivity|reflexivity]. }
  destruct (rt_inputs _ _ _ _ _ R) as [Si Gi]. split; [|auto]. split; [apply msorted_NoDup; exact Si|].
  intros o. change (In o (mkeys (tb_inputs b)) <-> In o (map fst (ins l))). rewrite mget_Some_in. rewrite Gi. split.
  - intros [v Hv]. apply latest_In in Hv. apply (in_map fst) in Hv. exact Hv.
  - intros Hi. destruct (latest (ins l) o) as [v|] eqn:E; [eauto|]. apply latest_none in E. contradiction.
Qed.
Print Assumptions C44_transition_partial.

(** When nothing is put twice to the same seal and type, everything is kept. *)
Theorem C44_exactly_once (l : list Item) : NoDup (map fst (owned l)) -> kept (owned l) = owned l.
Proof.
  induction (owned l) as [|p q IH]; [reflexivity|]. cbn [map kept]. intros H. apply NoDup_cons_iff in H as [Hn H].
  destruct (existsb _ q) eqn:E; [|rewrite IH by exact H; reflexivity].
  apply existsb_exists in E as (p' & Hi & Ek). apply keqb_true in Ek. destruct Hn. rewrite <- Ek. apply in_map. exact Hi.
Qed.
Print Assumptions C44_exactly_once.

(** Completing a transition never gives an error, and succeeds exactly when for each type of
    amounts the inputs of this type are amounts, and the blindings can be balanced (otherwise
    it panics). *)
Theorem C44_completes X P order contract tt b l :
  (forall s, Permutation (order s) s) -> len (fs_owned (bc_schema X)) <= 255 ->
  t_built X contract tt b l ->
  (forall e, complete_transition P order b <> Err e) /\
  ((exists op, complete_transition P order b = Ok op) <->
   forall ty, In ty (types_of KFungible (owned l)) ->
     can_balance P (inputs_of ty (kept (ins l))) (state_of ty (kept (owned l)))).
Proof.
  intros Ho Hs B. pose proof (t_built_repr _ _ _ _ _ B) as R. unfold complete_transition. split.
  - intros e. pose proof (complete_no_err X _ l (rt_op _ _ _ _ _ R) P order Ho Hs (tb_inputs b) e) as H.
    destruct (complete P order (tb_inputs b) (tb_builder b)); cbn; congruence.
  - destruct (rt_inputs _ _ _ _ _ R) as [Si Gi].
    rewrite <- (completes_iff X _ l (rt_op _ _ _ _ _ R) P order Ho Hs (tb_inputs b) (kept (ins l)) (kept_in_order _ _ Si Gi)). split.
    + intros (op & H). apply rbind_ok in H as (a & Ha & _). eauto.
    + intros (a & ->). cbn. eauto.
Qed.
Print Assumptions C44_completes.

(** The genesis of an issued contract has everything which was put in, with the tags, the
    chains and the issuer. *)
Theorem C44_contract_partial X P order head_no schema_id valid ts issuer b l head op :
  (forall s, Permutation (order s) s) -> len (fs_owned (bc_schema X)) <= 255 ->
  c_built X issuer b l -> issue_contract P order head_no schema_id valid ts b = Ok (head, op) ->
  op_kind op = OpGenesis /\ op_ty op = schema_id /\ op_head op = head_no head /\ valid head op = true /\
  shows_items l op /\
  (forall ty, mget ty (gh_tags head) = latest (tags l) ty) /\
  (gh_testnet head = true <-> ~ In ItMainnet l) /\ (gh_liquid head = true <-> In ItLiquid l) /\
  gh_issuer head = issuer /\ gh_timestamp head = ts /\
  op_inputs op = [] /\ op_meta op = [] /\ op_valencies op = [] /\ op_redeemed op = [].
Proof.
  intros Ho Hs B. pose proof (c_built_repr _ _ _ _ B) as R. unfold issue_contract. intros H. apply rbind_ok in H as (a & Ha & H).
  destruct (valid _ _) eqn:V; [|discriminate]. injection H as <- <-. cbn.
  split; [reflexivity|]. split; [reflexivity|]. split; [reflexivity|]. split; [exact V|]. split.
  { eapply shown_items; [apply R|exact Ho|exact Hs|exact Ha|reflexivity|reflexivity]. }
  split; [intros ty; apply (rp_tags _ _ _ (rc_op _ _ _ _ R))|]. split; [apply R|]. split; [apply R|]. split; [apply R|]. repeat split.
Qed.
Print Assumptions C44_contract_partial.

(** It fails with an error exactly when the contract is not valid. *)
Theorem C44_issue_fails X P order head_no schema_id valid ts issuer b l :
  (forall s, Permutation (order s) s) -> len (fs_owned (bc_schema X)) <= 255 -> c_built X issuer b l ->
  match issue_contract P order head_no schema_id valid ts b with
  | Err e => e = ContractInconsistent /\ exists h g, valid h g = false
  | Panic => exists ty, In ty (types_of KFungible (owned l)) /\ ~ can_balance P [] (state_of ty (kept (owned l)))
  | Ok _ => forall ty, In ty (types_of KFungible (owned l)) -> can_balance P [] (state_of ty (kept (owned l)))
  end.
Proof.
  intros Ho Hs B. pose proof (rc_op _ _ _ _ (c_built_repr _ _ _ _ B)) as R. unfold issue_contract.
  assert (Hio : @in_order Opout RState _ [] []) by (split; constructor).
  pose proof (completes_iff X _ l R P order Ho Hs [] [] Hio) as Hc.
  destruct (complete P order [] (cb_builder b)) as [a|e|] eqn:Ec; cbn [rbind].
  - assert (forall ty, In ty (types_of KFungible (owned l)) -> can_balance P [] (state_of ty (kept (owned l)))) as Hcan by (apply Hc; eauto).
    destruct (valid _ _) eqn:V; [exact Hcan|]. eauto.
  - exfalso. exact (complete_no_err X _ l R P order Ho Hs [] e Ec).
  - (* one of finitely many types cannot be balanced *)
    assert (Hdec : forall tys, (forall ty, In ty tys -> In ty (types_of KFungible (owned l))) ->
              (exists ty, In ty tys /\ ~ can_balance P [] (state_of ty (kept (owned l)))) \/
              (forall ty, In ty tys -> can_balance P [] (state_of ty (kept (owned l))))).
    { induction tys as [|ty tys IH]; intros Hin; [right; intros ? []|].
      destruct IH as [(ty' & Hi & Hn)|Hall]; [intros; apply Hin; right; assumption|left; exists ty'; split; [right; exact Hi|exact Hn]|].
      assert (can_balance P [] (state_of ty (kept (owned l))) \/ ~ can_balance P [] (state_of ty (kept (owned l)))) as [Hy|Hn].
      { destruct (proj1 (fungible_types X _ l R ty) (Hin ty (or_introl eq_refl))) as (x & Hx).
        pose proof (held_ordered X _ l R _ ty x Hx) as Hx'.
        destruct (slot_nonempty X _ l R _ _ _ Hx) as [Hne _]. destruct (@exists_last _ x Hne) as (first & last & ->).
        destruct (pd_balance P (input_blinds P []) (blindings first)) as [bl|] eqn:Eb.
        - left. split; [intros ? ? []|]. intros inputs' f la [Hp _] Hf. apply Permutation_nil in Hp. subst inputs'.
          pose proof (in_order_unique _ _ _ Hx' Hf) as E. apply app_inj_tail in E as [<- _]. eauto.
        - right. intros [_ Hb]. destruct (Hb [] first last Hio Hx') as [bl Hbl]. congruence. }
      + right. intros ty' [<-|Hi]; [exact Hy|exact (Hall ty' Hi)].
      + left. exists ty. split; [left; reflexivity|exact Hn]. }
    destruct (Hdec (types_of KFungible (owned l)) (fun ty H => H)) as [H|H]; [exact H|]. apply Hc in H as (a & Ha). discriminate.
Qed.
Print Assumptions C44_issue_fails.

(** With an implementation which passed its checks, no call panics, if types given by their
    numbers are in the schema, and defaults are not asked of a transition without a name. *)
Theorem C44_no_panic X contract b l c now is_date : impl_check now is_date (bc_impl X) (bc_iface X) (bc_schema X) = Ok tt ->
  forall ty, t_built X contract ty b l -> t_known X ty c -> t_call X b c <> Panic.
Proof.
  intros Hc ty B Hk. apply t_no_panic.
  - split; [|split]; intros name t E; [apply (proj1 (proj2 (C42_resolves_partial _ _ _ _ _ Hc TAssignment)) _ _ E)
      |apply (proj1 (proj2 (C42_resolves_partial _ _ _ _ _ Hc IfaceModel.TGlobal)) _ _ E)|apply (proj1 (proj2 (C42_resolves_partial _ _ _ _ _ Hc TMeta)) _ _ E)].
  - rewrite (rt_type _ _ _ _ _ (t_built_repr _ _ _ _ _ B)). exact Hk.
Qed.
Print Assumptions C44_no_panic.
Theorem C44_contract_no_panic X b c now is_date : impl_check now is_date (bc_impl X) (bc_iface X) (bc_schema X) = Ok tt -> c_call X b c <> Panic.
Proof.
  intros Hc. apply c_no_panic.
  split; [|split]; intros name t E; [apply (proj1 (proj2 (C42_resolves_partial _ _ _ _ _ Hc TAssignment)) _ _ E)
      |apply (proj1 (proj2 (C42_resolves_partial _ _ _ _ _ Hc IfaceModel.TGlobal)) _ _ E)|apply (proj1 (proj2 (C42_resolves_partial _ _ _ _ _ Hc TMeta)) _ _ E)].
Qed.
Print Assumptions C44_contract_no_panic.

(** *** An example: a contract with an asset, a right, data and an attachment *)
Definition bx_schema : FullSchema :=
  {| fs_meta := [(3, 9)]; fs_globals := [(1, {| gs_sem := 7; gs_max := 5 |})];
     fs_owned := [(10, OsFungible); (11, OsDeclarative); (12, OsStructured 5); (13, OsAttachment 6)]; fs_valencies := [];
     fs_genesis := sx_genesis; fs_transitions := [(20, sx_transfer)]; fs_extensions := [] |}.
Definition bx_iface : FullIface :=
  {| ff_name := 1; ff_inherits := []; ff_timestamp := 5; ff_metadata := []; ff_globals := []; ff_assigns := []; ff_valencies := [];
     ff_genesis := ix_op MFinal false [] [] [] None; ff_transitions := [(20, ix_op MFinal false [] [] [] (Some 10))];
     ff_extensions := []; ff_default := Some 20; ff_errors := [] |}.
Definition bx_impl : FullImpl :=
  {| fm_schema := 50; fm_iface := 1; fm_timestamp := 5; fm_metadata := [(3, 3)]; fm_globals := [(1, 1)];
     fm_assigns := [(10, 10); (11, 11); (12, 12); (13, 13)];
     fm_valencies := []; fm_transitions := [(20, 20)]; fm_extensions := []; fm_errors := [] |}.
Definition bx : BuildCtx :=
  {| bc_schema := bx_schema; bc_iface := bx_iface; bc_impl := bx_impl; bc_fits := fun sem v => v <? 100; bc_layer := fun _ => Bitcoin |}.
(** Blindings modulo 97 *)
Definition bx_pedersen : Pedersen :=
  {| pd_empty := 7; pd_balance := fun i o => Some ((list_sum i + (97 - list_sum o mod 97)) mod 97) |}.
Definition bx_seal (v : N) : BSeal := BRevealed {| s_layer := Bitcoin; s_method := TapretFirst; s_txid := None; s_vout := v; s_blinding := 3 |}.
Definition bx_in (ty no : N) : Opout := {| oo_op := 500; oo_ty := ty; oo_no := no |}.

Fixpoint t_calls (X : BuildCtx) (b : TrBuilder) (cs : list TCall) : option TrBuilder :=
  match cs with [] => Some b | c :: cs' => match t_call X b c with Ok b' => t_calls X b' cs' | _ => None end end.
Lemma t_calls_built X contract ty b l cs b' : t_built X contract ty b l -> t_calls X b cs = Some b' -> exists l', t_built X contract ty b' l'.
Proof.
  revert b l. induction cs as [|c cs IH]; intros b l B H; [injection H as <-; eauto|]. cbn in H. pose proof (C44_call X contract ty b l c B) as Hc.
  destruct (t_call X b c) as [b1| |]; try discriminate. destruct Hc as (i & _ & _ & B1). exact (IH _ _ B1 H).
Qed.
Fixpoint c_calls (X : BuildCtx) (b : CtBuilder) (cs : list CCall) : option CtBuilder :=
  match cs with [] => Some b | c :: cs' => match c_call X b c with Ok b' => c_calls X b' cs' | _ => None end end.

Definition bx_transfer : list TCall :=
  [TAssetTag 10 77; TInput (bx_in 10 0) (RAmount 30 11 77); TInput (bx_in 10 1) (RAmount 12 22 77); TInput (bx_in 11 0) RVoid;
   TFungibleDefault (bx_seal 2) 40 90; TFungible 10 (bx_seal 1) 2 91; TRights 11 (BConcealed 8); TData 12 (bx_seal 1) (Some 6) 4;
   TAttachment 13 (bx_seal 0) 9 9; TGlobal 1 (Some 33); TGlobal 1 (Some 22); TMetadata 3 (Some 1); TSetNonce 4].
Lemma bx_balances : balances 97 bx_pedersen.
Proof.
  intros i o b H. cbn in H. injection H as <-. generalize (list_sum i) (list_sum o). intros x y.
  rewrite N.add_mod_idemp_r by discriminate. rewrite (N.div_mod y 97) at 1 by discriminate.
  pose proof (N.mod_lt y 97). replace (97 * (y / 97) + y mod 97 + (x + (97 - y mod 97))) with (x + (y / 97 + 1) * 97) by lia.
  apply N.mod_add. discriminate.
Qed.
(** All calls are accepted; the greater seal gets the change of the blinding. *)
Example C44_nonvacuous : exists b op l,
  t_calls bx (tb_new 600 20) bx_transfer = Some b /\ t_built bx 600 20 b l /\
  complete_transition bx_pedersen (fun s => s) b = Ok op /\ impl_check 10 (fun _ => true) bx_impl bx_iface bx_schema = Ok tt /\
  op_inputs op = [bx_in 10 0; bx_in 10 1; bx_in 11 0] /\ op_globals op = [(1, [33; 22])] /\
  mget 10 (op_assigns op) = Some {| ta_kind := KFungible; ta_list := [assigned (bx_seal 1) (RAmount 2 91 77); assigned (bx_seal 2) (RAmount 40 39 77)] |} /\
  mget 11 (op_assigns op) = Some {| ta_kind := KDeclarative; ta_list := [ConfidentialSeal 8 RVoid] |} /\
  is_ok (t_call bx b (TAssetTag 10 5)) = false /\ is_ok (t_call bx b (TMetadata 3 (Some 1))) = false /\ is_ok (t_call bx b (TGlobal 1 (Some 100))) = false.
Proof.
  destruct (t_calls bx (tb_new 600 20) bx_transfer) as [b|] eqn:E; [|vm_compute in E; discriminate].
  destruct (t_calls_built _ _ _ _ _ _ _ (t_built_new bx 600 20) E) as [l B].
  vm_compute in E. injection E as E. rewrite <- E in *. clear E b.
  eexists. eexists. exists l. split; [reflexivity|]. split; [exact B|]. split; [vm_compute; reflexivity|]. repeat split.
Qed.

(** The metadata is put in, checked and forgotten. *)
Theorem C44_metadata_refuted :
  ~ (forall X P order contract ty b l op, (forall s, Permutation (order s) s) -> t_built X contract ty b l -> complete_transition P order b = Ok op ->
       forall t v, latest (metas l) t = Some v -> mget t (op_meta op) = Some v).
Proof.
  intros H. assert (B : t_built bx 600 20 (tb_set (tb_new 600 20) (ob_set_meta ob_new [(3, 1)])) ([] ++ [ItMeta 3 1])).
  { eapply (t_built_call bx 600 20 _ [] (TMetadata 3 (Some 1))); [constructor|reflexivity|]. constructor. reflexivity. }
  specialize (H bx bx_pedersen (fun s => s) 600 20 _ _ _ (fun s => Permutation_refl s) B eq_refl 3 1 eq_refl). discriminate H.
Qed.
Print Assumptions C44_metadata_refuted.

(** Two amounts put to one seal: both calls are accepted, and only the second is in the
    transition. *)
Theorem C44_same_seal_refuted :
  ~ (forall X P order contract ty b l op, (forall s, Permutation (order s) s) -> len (fs_owned (bc_schema X)) <= 255 ->
       t_built X contract ty b l -> complete_transition P order b = Ok op -> length (made op) = length (owned l)).
Proof.
  intros H.
  assert (B : exists b op, t_built bx 600 20 b [ItTag 10 77; ItOwn 10 (bx_seal 1) (RAmount 5 1 77); ItOwn 10 (bx_seal 1) (RAmount 6 1 77)] /\
                complete_transition bx_pedersen (fun s => s) b = Ok op /\ length (made op) = 1%nat).
  { pose proof (t_built_call bx 600 20 _ [] (TAssetTagRaw 10 77) _ (ItTag 10 77) (t_built_new _ _ _) eq_refl (ask_tag_raw _ _ _ _ _)) as B1.
    pose proof (t_built_call bx 600 20 _ [ItTag 10 77] (TFungibleRaw 10 (bx_seal 1) 5 1) _ _ B1 eq_refl (ask_fungible_raw bx 20 [ItTag 10 77] 10 (bx_seal 1) 5 1 77 eq_refl)) as B2.
    pose proof (t_built_call bx 600 20 _ [ItTag 10 77; ItOwn 10 (bx_seal 1) (RAmount 5 1 77)] (TFungibleRaw 10 (bx_seal 1) 6 1) _ _ B2 eq_refl
                  (ask_fungible_raw bx 20 [ItTag 10 77; ItOwn 10 (bx_seal 1) (RAmount 5 1 77)] 10 (bx_seal 1) 6 1 77 eq_refl)) as B3.
    eexists. eexists. split; [exact B3|]. split; vm_compute; reflexivity. }
  destruct B as (b & op & B & Hop & Hl).
  pose proof (H bx bx_pedersen (fun s => s) 600 20 b _ op (fun s => Permutation_refl s) ltac:(vm_compute; discriminate) B Hop) as H'.
  rewrite Hl in H'. discriminate H'.
Qed.
Print Assumptions C44_same_seal_refuted.

(** A type which is not in the schema makes raw calls panic, and so does asking a blank
    transition for its default. *)
Theorem C44_no_panic_refuted :
  ~ (forall X contract ty b l c now is_date, impl_check now is_date (bc_impl X) (bc_iface X) (bc_schema X) = Ok tt ->
       t_built X contract ty b l -> t_call X b c <> Panic) /\
  ~ (forall X contract now is_date s v r, impl_check now is_date (bc_impl X) (bc_iface X) (bc_schema X) = Ok tt ->
       t_call X (blank_transition contract) (TFungibleDefault s v r) <> Panic).
Proof.
  split; intros H.
  - exact (H bx 600 20 _ _ (TDataRaw 99 (bx_seal 1) 1 1) 10%Z (fun _ => true) eq_refl (t_built_new bx 600 20) eq_refl).
  - exact (H bx 600 10%Z (fun _ => true) (bx_seal 1) 1 1 eq_refl eq_refl).
Qed.
Print Assumptions C44_no_panic_refuted.

(** A contract builder *)
Definition bx_issue : list CCall :=
  [CLiquid; CMainnet; CGlobal 1 (Some 33); CFungible 10 (bx_seal 2) 1000 5 77; CFungibleDet 10 (bx_seal 1) 500 6 78; CRights 11 (BConcealed 8);
   CData 12 (bx_seal 1) (Some 6) 4; CAttachment 13 (bx_seal 0) 9 9].
Lemma c_calls_built X issuer b l cs b' : c_built X issuer b l -> c_calls X b cs = Some b' -> exists l', c_built X issuer b' l'.
Proof.
  revert b l. induction cs as [|c cs IH]; intros b l B H; [injection H as <-; eauto|]. cbn in H. pose proof (C44_contract_call X issuer b l c B) as Hc.
  destruct (c_call X b c) as [b1| |]; try discriminate. destruct Hc as (i & _ & _ & B1). exact (IH _ _ B1 H).
Qed.
Example C44_contract_nonvacuous : exists b head op l,
  c_calls bx (cb_new 9) bx_issue = Some b /\ c_built bx 9 b l /\
  issue_contract bx_pedersen (fun s => s) (fun _ => 0) 50 (fun _ _ => true) 100%Z b = Ok (head, op) /\
  gh_tags head = [(10, 77)] /\ gh_testnet head = false /\ gh_liquid head = true /\
  mget 10 (op_assigns op) = Some {| ta_kind := KFungible; ta_list := [assigned (bx_seal 1) (RAmount 500 6 77); assigned (bx_seal 2) (RAmount 1000 1 77)] |}.
Proof.
  destruct (c_calls bx (cb_new 9) bx_issue) as [b|] eqn:E; [|vm_compute in E; discriminate].
  destruct (c_calls_built _ _ _ _ _ _ (c_built_new bx 9) E) as [l B].
  vm_compute in E. injection E as E. rewrite <- E in *. clear E b.
  eexists. eexists. eexists. exists l. split; [reflexivity|]. split; [exact B|]. split; [vm_compute; reflexivity|]. repeat split.
Qed.

(** ** C45: blindings balance *)

(** For every fungible type of a completed transition: the amounts are those put in, in the
    order of their seals, only the blinding of the last is changed, and the blindings of the
    outputs add up to those of the inputs of the type (to the constant of rgb-core when there
    are none). *)
Theorem C45_transition X q P order contract ty b l op :
  balances q P -> (forall s, Permutation (order s) s) -> len (fs_owned (bc_schema X)) <= 255 ->
  t_built X contract ty b l -> complete_transition P order b = Ok op ->
  forall t, In t (types_of KFungible (owned l)) <-> exists ta, mget t (op_assigns op) = Some ta /\ ta_kind ta = KFungible /\
    balanced_type q P (inputs_of t (kept (ins l))) (state_of t (kept (owned l))) ta.
Proof.
  intros Hq Ho Hs B H t. pose proof (t_built_repr _ _ _ _ _ B) as R. apply rbind_ok in H as (a & Ha & [= <-]). cbn [op_assigns].
  destruct (rt_inputs _ _ _ _ _ R) as [Si Gi]. split.
  - apply (shown_balanced X _ l (rt_op _ _ _ _ _ R) P order Ho Hs _ a Ha q (kept (ins l)) t Hq (kept_in_order _ _ Si Gi)).
  - intros (ta & Ht & Hk & _). exact (shown_fungible X _ l (rt_op _ _ _ _ _ R) P order Ho Hs _ a Ha t ta Ht Hk).
Qed.
Print Assumptions C45_transition.

(** The same for a genesis, which has no inputs. *)
Theorem C45_genesis X q P order head_no schema_id valid ts issuer b l head op :
  balances q P -> (forall s, Permutation (order s) s) -> len (fs_owned (bc_schema X)) <= 255 ->
  c_built X issuer b l -> issue_contract P order head_no schema_id valid ts b = Ok (head, op) ->
  forall t, In t (types_of KFungible (owned l)) <-> exists ta, mget t (op_assigns op) = Some ta /\ ta_kind ta = KFungible /\
    balanced_type q P [] (state_of t (kept (owned l))) ta.
Proof.
  intros Hq Ho Hs B H t. pose proof (rc_op _ _ _ _ (c_built_repr _ _ _ _ B)) as R. apply rbind_ok in H as (a & Ha & H).
  cbv zeta in H. destruct (valid _ _); [|discriminate]. injection H as <- <-. cbn [op_assigns].
  assert (Hio : @in_order Opout RState _ [] []) by (split; constructor). split.
  - apply (shown_balanced X _ l R P order Ho Hs _ a Ha q [] t Hq Hio).
  - intros (ta & Ht & Hk & _). exact (shown_fungible X _ l R P order Ho Hs _ a Ha t ta Ht Hk).
Qed.
Print Assumptions C45_genesis.

(** The completed transfer of the example: the blindings 91 and 39 of the outputs make up 11
    and 22 of the inputs, modulo 97. *)
Example C45_nonvacuous : exists b op l, t_built bx 600 20 b l /\ balances 97 bx_pedersen /\
  complete_transition bx_pedersen (fun s => s) b = Ok op /\ In 10 (types_of KFungible (owned l)) /\ (91 + 39) mod 97 = (11 + 22) mod 97.
Proof.
  destruct C44_nonvacuous as (b & op & l & _ & B & H & _ & _ & _ & Hm & _). exists b, op, l.
  split; [exact B|]. split; [exact bx_balances|]. split; [exact H|]. split; [|reflexivity].
  apply (C45_transition bx 97 bx_pedersen (fun s => s) 600 20 b l op bx_balances (fun s => Permutation_refl s)); [vm_compute; discriminate|exact B|exact H|].
  pose proof (C45_transition bx 97 bx_pedersen (fun s => s) 600 20 b l op bx_balances (fun s => Permutation_refl s) ltac:(vm_compute; discriminate) B H 10) as Hi.
  apply rbind_ok in H as (a & Ha & [= E]). rewrite <- E in Hm. cbn in Hm.
  pose proof (shown_fungible bx _ l (rt_op _ _ _ _ _ (t_built_repr _ _ _ _ _ B)) bx_pedersen (fun s => s) (fun s => Permutation_refl s)
                ltac:(vm_compute; discriminate) _ a Ha 10 _ Hm eq_refl) as Hin. apply Hi in Hin. rewrite <- E in Hin. rewrite <- E. exact Hin.
Qed.
