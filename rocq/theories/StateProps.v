(** * The state of contracts: properties C26-C31 *)
From Verif Require Import Base StM Core HashExists ContainerModel PIndexModel PIndexSpec PIndexProofs.
From Verif Require Import StateModel StateSpec StateProofs.
Local Open Scope N_scope.

(** ** C26: the same data again (state part) *)

(** Repeating a successful import or update, while no collection is full, changes nothing
    and succeeds. *)
Theorem C26_state_again_partial : forall (OG : OrdKey GlobalOut) H history c s,
  collision_free H -> history_sorted H (c :: history) ->
  state_call H c (state_after H history) = (s, Ok tt) -> shas_room s ->
  state_call H c s = (s, Ok tt).
Proof. intros OG. exact (@state_again OG). Qed.

(** ** C27: allocations *)

(** A contract can be read once it was imported, and only then. *)
Theorem C27_known_contracts : forall (OG : OrdKey GlobalOut) H history cid,
  ((exists c, contract_state (state_after H history) cid = Ok c) ->
   exists c r, In (StConsignment c r) history /\ cid = op_id H (c_genesis c)) /\
  (sall_succeed H ms_empty history ->
   forall c r, In (StConsignment c r) history ->
   exists x, contract_state (state_after H history) (op_id H (c_genesis c)) = Ok x).
Proof.
  intros OG H history cid. split.
  - intros Hc. apply contract_state_ok in Hc. apply safter_sound in Hc.
    destruct Hc as (call & Hin & c & r & -> & ->). eauto.
  - intros Hok c r Hin. apply contract_state_ok.
    apply (safter_complete H history _ (SFContract (op_id H (c_genesis c))) Hok Hin). simpl. eauto.
Qed.

(** Whatever happened before, each allocation reported is one revealed by an imported
    operation, with the state given there, and its witness is not archived.  None is
    reported twice. *)
Theorem C27_only_imported : forall (OG : OrdKey GlobalOut) H history cid c k,
  contract_state (state_after H history) cid = Ok c ->
  (forall a, In a (outs_all k c) ->
     (exists call ow o, In call history /\ imports H call cid ow o /\ reveals H o ow k a) /\
     live (state_after H history) (oa_witness a)) /\
  NoDup (map (fun a => (oa_opout a, oa_seal a)) (outs_all k c)).
Proof.
  intros OG H history cid c k E. split; [|eapply outs_all_once; [apply safter_wf|exact E]].
  intros a Ha. rewrite (outs_all_spec _ _ _ _ _ (safter_wf H history) E) in Ha. destruct Ha as [Hs Hl].
  split; [|exact Hl]. apply safter_sound in Hs. destruct Hs as (call & Hin & ow & o & Hi & Hr). eauto 10.
Qed.

(** Every revealed allocation with a live witness is reported, if no operation was imported
    under two witnesses (or its seals tell them apart). *)
Theorem C27_allocations_partial : forall (OG : OrdKey GlobalOut) H history cid c k a,
  collision_free H -> history_sorted H history -> sall_succeed H ms_empty history ->
  one_witness H history ->
  contract_state (state_after H history) cid = Ok c ->
  (In a (outs_all k c) <->
   (exists call ow o, In call history /\ imports H call cid ow o /\ reveals H o ow k a) /\
   live (state_after H history) (oa_witness a)).
Proof.
  intros OG H history cid c k a HC HS Hok HW E. split.
  - apply (C27_only_imported OG H history cid c k E).
  - intros [(call & ow & o & Hin & Hi & Hr) Hl].
    apply (outs_all_spec _ _ _ _ _ (safter_wf H history) E). split; [|exact Hl].
    destruct (safter_complete H history call (SFOut cid k a) Hok Hin) as (b & Hb & Hs); [simpl; eauto|].
    pose proof Hs as Hs'. apply safter_sound in Hs'. destruct Hs' as (call' & Hin' & ow' & o' & Hi' & Hr').
    assert (Hab : same_out a b) by (destruct Hb; split; congruence).
    destruct (reveals_fun H o o' ow ow' k k a b HC (HS _ _ _ _ Hin Hi) (HS _ _ _ _ Hin' Hi') Hr Hr' Hab)
      as (_ & Est & Eid & seal & (ty & ta & no & st & Hx & Hn) & So & So').
    assert (Ew : op_witness ow = op_witness ow').
    { destruct (HW _ _ _ _ _ _ _ Hin Hin' Hi Hi' Eid) as [Ew|Hnone]; [exact Ew|].
      eapply seal_output_witness; [eapply Hnone; eauto|exact So|exact So']. }
    assert (Eq : a = b).
    { destruct Hr as (? & ? & ? & ? & ? & _ & _ & _ & _ & _ & _ & Wa).
      destruct Hr' as (? & ? & ? & ? & ? & _ & _ & _ & _ & _ & _ & Wb).
      destruct Hab as [A1 A2]. destruct a, b; simpl in *. congruence. }
    rewrite Eq. exact Hs.
Qed.

(** Queries for one output and one type agree with the full list. *)
Theorem C27_queries : forall c k o ty,
  (forall a, In a (outs_at k c o ty) <->
     In a (outs_all k c) /\ os_outpoint (oa_seal a) = o /\ oo_ty (oa_opout a) = ty) /\
  mc_rights c o ty = len (filter (at_outpoint o ty) (outs_all KDeclarative c)) /\
  mc_fungible c o ty = map (fun a => state_value (oa_state a)) (filter (at_outpoint o ty) (outs_all KFungible c)) /\
  mc_data c o ty = map (fun a => state_value (oa_state a)) (filter (at_outpoint o ty) (outs_all KStructured c)) /\
  mc_attach c o ty = map (fun a => state_value (oa_state a)) (filter (at_outpoint o ty) (outs_all KAttachment c)).
Proof.
  intros c k o ty.
  assert (E : forall k, outs_at k c o ty = filter (at_outpoint o ty) (outs_all k c)).
  { intros k'. unfold outs_at, outs_all. apply filter_swap. }
  split; [|unfold mc_rights, mc_fungible, mc_data, mc_attach; rewrite !E; auto].
  intros a. rewrite E, filter_In. unfold at_outpoint. rewrite andb_true_iff, keqb_eq, N.eqb_eq. tauto.
Qed.

(** An import sets the status of exactly the witnesses of its known transitions to the one
    resolved; an update sets that of the witnesses which are due and resolved. *)
Theorem C27_import_status : forall (OG : OrdKey GlobalOut) H c r s s' res,
  (exists cons, c = StConsignment cons r) \/ (exists cid b w, c = StBundle cid b w r) ->
  state_call H c s = (s', res) ->
  (forall w, ~ touches c w -> mget w (ms_witnesses s') = mget w (ms_witnesses s)) /\
  (res = Ok tt -> forall w, touches c w -> r w <> None /\ mget w (ms_witnesses s') = r w).
Proof.
  intros OG H c r s s' res [[cons ->]|(cid & b & w0 & ->)] E; simpl in E.
  - apply wsets_consignment in E. destruct E as [A B]. split.
    + intros w Hw. destruct (A w) as [Hx|(Hx & _)]; [exact Hx|contradiction].
    + intros Er. apply (B tt Er).
  - apply wsets_bundle in E. destruct E as [A B]. split.
    + intros w Hw. destruct (A w) as [Hx|(Hx & _)]; [exact Hx|contradiction].
    + intros Er. apply (B tt Er).
Qed.

(** An allocation goes away when its witness is found archived, and comes back when it is
    found mined or pending again. *)
Lemma due_skip after ord : due after ord <-> skip_witness after ord = false.
Proof. destruct ord; simpl; [rewrite N.ltb_ge; reflexivity|tauto|tauto]. Qed.

Theorem C27_archived_and_back : forall (OG : OrdKey GlobalOut) H history r after r' after' cid k a w old ord c0,
  let s0 := state_after H history in
  let s1 := state_after H (history ++ [StUpdate r after]) in
  let s2 := state_after H (history ++ [StUpdate r after; StUpdate r' after']) in
  contract_state s0 cid = Ok c0 -> In a (outs_all k c0) -> oa_witness a = Some w ->
  mget w (ms_witnesses s0) = Some old -> due after old -> r w = Some Archived ->
  r' w = Some ord -> ord <> Archived ->
  exists c1 c2, contract_state s1 cid = Ok c1 /\ contract_state s2 cid = Ok c2 /\
    ~ In a (outs_all k c1) /\ In a (outs_all k c2) /\
    (forall b, oa_witness b = None -> (In b (outs_all k c1) <-> In b (outs_all k c0))).
Proof.
  intros OG H history r after r' after' cid k a w old ord c0 s0 s1 s2 Ec Ha Ew Ho Hd Hr Hr' Hv.
  assert (E1 : s1 = fst (update_witnesses r after s0)).
  { unfold s1, state_after. rewrite state_calls_app. reflexivity. }
  assert (E2 : s2 = fst (update_witnesses r' after' s1)).
  { rewrite E1. unfold s2, state_after. rewrite state_calls_app. reflexivity. }
  assert (G1 : mget w (ms_witnesses s1) = Some Archived).
  { rewrite E1, update_witnesses_get, Ho. simpl. unfold new_status. apply due_skip in Hd. rewrite Hd, Hr. reflexivity. }
  assert (G2 : mget w (ms_witnesses s2) = Some ord).
  { rewrite E2, update_witnesses_get, G1. simpl. unfold new_status. simpl. rewrite Hr'. reflexivity. }
  assert (C1 : ms_contracts s1 = ms_contracts s0) by (rewrite E1; reflexivity).
  assert (C2 : ms_contracts s2 = ms_contracts s0) by (rewrite E2, <- C1; reflexivity).
  assert (St : forall s f, ms_contracts s = ms_contracts s0 -> (sstates s f <-> sstates s0 f)).
  { intros s f Es. destruct f; simpl; rewrite Es; reflexivity. }
  assert (K0 : sstates s0 (SFContract cid)) by (apply contract_state_ok; eauto).
  destruct (proj2 (contract_state_ok s1 cid)) as [c1 Ec1]; [apply St; assumption|].
  destruct (proj2 (contract_state_ok s2 cid)) as [c2 Ec2]; [apply St; assumption|].
  exists c1, c2. split; [exact Ec1|]. split; [exact Ec2|].
  pose proof (fun b => outs_all_spec _ _ _ k b (safter_wf H history : swf s0) Ec) as S0.
  pose proof (fun b => outs_all_spec _ _ _ k b (safter_wf H (history ++ [StUpdate r after]) : swf s1) Ec1) as S1.
  pose proof (fun b => outs_all_spec _ _ _ k b (safter_wf H (history ++ [StUpdate r after; StUpdate r' after']) : swf s2) Ec2) as S2.
  split; [|split].
  - rewrite S1. intros [_ Hl]. rewrite Ew in Hl. simpl in Hl. destruct Hl as (o & Hx & Hy). congruence.
  - rewrite S2. apply S0 in Ha. destruct Ha as [Hs _]. split; [apply St; assumption|]. rewrite Ew. simpl. eauto.
  - intros b Hb. rewrite S0, S1, Hb. cbn [live]. rewrite (St s1) by exact C1. tauto.
Qed.

(** ** C28: global state *)

(** The values reported come from imported operations, each with the current status of its
    witness; there are at most as many as the schema allows, and all of them are there when
    within that limit. *)
Theorem C28_global_state_partial : forall (OG : OrdKey GlobalOut) H history cid c ty l,
  contract_state (state_after H history) cid = Ok c -> global_values c ty = Some l ->
  (forall ord d, In (ord, d) l -> exists call ow o go, In call history /\ imports H call cid ow o /\
     shows H o ow ty go d /\ placed (state_after H history) go ord) /\
  exists limit,
    (exists call r, In (StConsignment call r) history /\ cid = op_id H (c_genesis call) /\
       In (ty, limit) (sch_globals (c_schema call))) /\
    len l <= limit /\
    (collision_free H -> history_sorted H history -> sall_succeed H ms_empty history ->
     forall places, NoDup places ->
     (forall go, In go places <-> exists call ow o d, In call history /\ imports H call cid ow o /\ shows H o ow ty go d) ->
     len l = N.min limit (len places) /\
     (len places <= limit -> forall call ow o go d,
        In call history -> imports H call cid ow o -> shows H o ow ty go d ->
        exists ord, placed (state_after H history) go ord /\ In (ord, d) l)).
Proof.
  intros OG H history cid c ty l E El.
  destruct (global_values_spec _ _ _ _ _ (safter_wf H history) E El)
    as (limit & known & Hlim & ND & HK & Hlen & Hin & Hall).
  split.
  - intros ord d Hd. destruct (Hin ord d Hd) as (go & Hs & Hp). apply safter_sound in Hs.
    destruct Hs as (call & Hc & ow & o & Hi & Hsh). exists call, ow, o, go. auto.
  - exists limit. split; [|split].
    + apply safter_sound in Hlim. destruct Hlim as (call & Hc & cons & r & -> & H1 & H2). eauto.
    + unfold len. lia.
    + intros HC HS Hok places NP HP.
      assert (HS' : forall call ow o go d, In call history -> imports H call cid ow o -> shows H o ow ty go d ->
                sstates (state_after H history) (SFGlobal cid ty go d)).
      { intros call ow o go d Hc Hi Hsh.
        destruct (safter_complete H history call (SFGlobal cid ty go d) Hok Hc) as (d' & Hs); [simpl; eauto|].
        pose proof Hs as Hs'. apply safter_sound in Hs'. destruct Hs' as (call' & Hc' & ow' & o' & Hi' & Hsh').
        assert (d' = d) as -> by (eapply (shows_fun H o' o); eauto). exact Hs. }
      assert (EL : length places = length known).
      { rewrite <- (map_length fst known). apply Nat.le_antisymm; apply NoDup_incl_length; try assumption.
        - intros go Hg. apply HP in Hg. destruct Hg as (call & ow & o & d & Hc & Hi & Hsh).
          apply (in_map fst known (go, d)), HK. eapply HS'; eauto.
        - intros go Hg. apply in_map_iff in Hg. destruct Hg as ([go' d] & Eg & Hg). simpl in Eg. subst go'.
          apply HK in Hg. apply safter_sound in Hg. destruct Hg as (call & Hc & ow & o & Hi & Hsh).
          apply HP. eauto 10. }
      split; [unfold len; lia|]. unfold len. intros Hle call ow o go d Hc Hi Hsh.
      apply Hall; [lia|]. eapply HS'; eauto.
Qed.

(** ** A concrete history *)

Definition ex_ord : OrdKey GlobalOut := OrdGlobalOut.

Definition st_op (k : OpKind) (globals : omap N (list N)) (l : list Assign) : Operation :=
  {| op_kind := k; op_head := 0; op_contract := 0; op_ty := 3; op_nonce := 0; op_meta := [];
     op_globals := globals; op_inputs := []; op_redeemed := [];
     op_assigns := match l with [] => [] | _ => [(4, {| ta_kind := KDeclarative; ta_list := l |})] end;
     op_valencies := [] |}.
Definition st_genesis : Operation := st_op OpGenesis [] [].
Definition st_cons : Consignment :=
  {| c_transfer := false; c_terminals := []; c_genesis := st_genesis; c_extensions := []; c_bundles := [];
     c_schema := {| sch_id := 0; sch_globals := [(7, 10)]; sch_libs := []; sch_types := [] |};
     c_ifaces := []; c_supplements := []; c_types := []; c_scripts := []; c_attachments := [];
     c_signatures := [] |}.
(** A transition with one global state value, and one right on the seal [s] *)
Definition st_trans (s : Seal) : Operation := st_op OpTransition [(7, [42])] [Revealed s RVoid].
Definition st_tb (H : Hashes) (s : Seal) : Bundle :=
  let id := op_id H (st_trans s) in
  {| b_method := OpretFirst; b_inputs := [(0, id)]; b_known := [(id, st_trans s)] |}.
Definition st_w (n : N) : WitnessId := {| w_layer := Bitcoin; w_txid := n |}.

Section Example.
Context (H : Hashes).

Definition st_cs (outs : Outputs) (known : omap GlobalOut N) : ContractState :=
  {| cs_schema := 0; cs_contract := op_id H st_genesis; cs_global := [(7, {| mg_known := known; mg_limit := 10 |})];
     cs_rights := outs; cs_fungibles := []; cs_data := []; cs_attach := [] |}.
Definition st_state (ws : omap WitnessId WitnessOrd) (outs : Outputs) (known : omap GlobalOut N) : MemState :=
  {| ms_witnesses := ws; ms_contracts := [(op_id H st_genesis, st_cs outs known)] |}.
Definition st_go (s : Seal) (w : N) : GlobalOut :=
  {| go_op := op_id H (st_trans s); go_nonce := 0; go_index := 0; go_witness := OWTransition (st_w w) 3 |}.
Definition st_key (s : Seal) (out : OutSeal) : OutKey :=
  ({| oo_op := op_id H (st_trans s); oo_ty := 4; oo_no := 0 |}, out).

Lemma on_one_contract {OG : OrdKey GlobalOut} cid f ws cs cs' : f cs = Ok cs' ->
  on_contract cid f {| ms_witnesses := ws; ms_contracts := [(cid, cs)] |} =
  ({| ms_witnesses := ws; ms_contracts := [(cid, cs')] |}, Ok tt).
Proof.
  intros Ef. unfold on_contract. cbn [ms_contracts mget]. rewrite keqb_refl, Ef.
  unfold set_states. cbn [ms_contracts ms_witnesses minsert]. rewrite cmp_refl. reflexivity.
Qed.

Lemma st_first {OG : OrdKey GlobalOut} r : state_call H (StConsignment st_cons r) ms_empty = (st_state [] [] [], Ok tt).
Proof.
  cbn [state_call]. unfold update_from_consignment. cbn [c_bundles c_extensions st_cons mfor].
  unfold st_register, bind at 1 2 3 4, get, put, cinsert, mhas.
  cbn [ms_empty ms_contracts ms_witnesses mget len length c_genesis].
  match goal with |- context [?a <? U8MAX] => change (a <? U8MAX) with true end. cbv beta iota.
  unfold add_genesis, set_states. cbn [ms_witnesses ms_empty minsert].
  rewrite (on_one_contract _ _ _ _ (st_cs [] [])); [reflexivity|]. reflexivity.
Qed.

(** One bundle with the transition is imported. *)
Lemma st_bundle {OG : OrdKey GlobalOut} s n ord r ws outs known out :
  r (st_w n) = Some ord -> assign_output (Some (st_w n)) s = Some out ->
  len ws < U32MAX -> len outs < U32MAX -> len known < U32MAX ->
  state_call H (StBundle (op_id H st_genesis) (st_tb H s) (st_w n) r) (st_state ws outs known) =
  (st_state (minsert (st_w n) ord ws)
     (if mhas (st_key s out) outs then outs else minsert (st_key s out) (RVoid, Some (st_w n)) outs)
     (minsert (st_go s n) 42 known), Ok tt).
Proof.
  intros Er Eo Rw Ro Rk. cbn [state_call]. unfold update_from_bundle.
  unfold bind at 1, get, mhas at 1, st_state. cbn [ms_contracts mget]. rewrite keqb_refl.
  unfold bind at 1, ret. cbn [st_tb b_known mvals map snd mfor].
  unfold bind at 1 2, resolve, lift. rewrite Er. cbn [ok_or]. unfold add_transition, bind at 1, set_witness, cinsert.
  cbn [ms_witnesses]. rewrite (proj2 (N.ltb_lt _ _) Rw). unfold set_witnesses. cbn [ms_contracts].
  rewrite (on_one_contract _ _ _ _ (st_cs
     (if mhas (st_key s out) outs then outs else minsert (st_key s out) (RVoid, Some (st_w n)) outs)
     (minsert (st_go s n) 42 known))); [reflexivity|].
  unfold add_operation, add_globals, add_assignments.
  cbn [op_globals st_trans st_op rfold fst snd st_cs cs_global mget].
  change (keqb 7 7) with true. cbv beta iota. cbn [expect rbind mg_known mg_limit enumerate enum_from rfold fst snd].
  unfold cinsert. rewrite (proj2 (N.ltb_lt _ _) Rk). cbn [expect rbind minsert cs_global].
  change (cmp 7 7) with Eq. cbv beta iota. cbn [op_assigns st_op st_trans rfold fst snd ta_kind ta_list cs_outs].
  unfold process. cbn [enumerate enum_from rfold fst snd to_revealed op_witness]. fold (st_w n). rewrite Eo.
  cbn [expect rbind cs_set_global cs_rights]. 
  assert (EP : push_out (st_key s out) RVoid (Some (st_w n)) outs =
            Some (if mhas (st_key s out) outs then outs else minsert (st_key s out) (RVoid, Some (st_w n)) outs)).
  { unfold push_out. rewrite (proj2 (N.ltb_lt _ _) Ro). reflexivity. }
  match goal with |- context [push_out ?k ?v ?w ?o] =>
    assert (EP' : push_out k v w o = push_out (st_key s out) RVoid (Some (st_w n)) outs) by reflexivity;
    rewrite EP', EP end.
  reflexivity.
Qed.
End Example.

Definition st_seal : Seal := {| s_layer := Bitcoin; s_method := OpretFirst; s_txid := Some 5; s_vout := 0; s_blinding := 0 |}.
Definition st_out : OutSeal := {| os_layer := Bitcoin; os_method := OpretFirst; os_txid := 5; os_vout := 0 |}.
Definition st_pending : Resolver := fun _ => Some Tentative.
Definition st_reorg : Resolver := fun w => if w_txid w =? 8 then Some Archived else Some (Mined 3 0).

Lemma st_assigned n : assign_output (Some (st_w n)) st_seal = Some st_out.
Proof. reflexivity. Qed.

(** The contract, then the transition *)
Definition st_history (H : Hashes) : list StateCall :=
  [StConsignment st_cons st_pending; StBundle (op_id H st_genesis) (st_tb H st_seal) (st_w 8) st_pending].
Lemma st_history_after {OG : OrdKey GlobalOut} H :
  state_after H (st_history H) =
  st_state H [(st_w 8, Tentative)] [(st_key H st_seal st_out, (RVoid, Some (st_w 8)))] [(st_go H st_seal 8, 42)] /\
  sall_succeed H ms_empty (st_history H).
Proof.
  unfold state_after, state_calls, st_history. cbn [fold_left sall_succeed]. rewrite st_first. cbn [fst].
  assert (E : state_call H (StBundle (op_id H st_genesis) (st_tb H st_seal) (st_w 8) st_pending) (st_state H [] [] []) =
     (st_state H [(st_w 8, Tentative)] [(st_key H st_seal st_out, (RVoid, Some (st_w 8)))] [(st_go H st_seal 8, 42)], Ok tt)).
  { rewrite (st_bundle H st_seal 8 Tentative st_pending [] [] [] st_out); reflexivity. }
  rewrite E. cbn [fst]. split; [reflexivity|]. split; [|split; [|exact I]]; eexists; [apply st_first|exact E].
Qed.

Lemma st_history_sorted H : history_sorted H (st_history H).
Proof.
  intros c cid ow o [<-|[<-|[]]]; simpl.
  - intros [-> [[-> ->]|[(wb & [] & _)|(w & [] & _)]]]. split; constructor.
  - intros (-> & [<-|[]] & ->). split; repeat constructor.
Qed.

(** After a reorganisation which archives the first witness *)
Definition st_moved (H : Hashes) : list StateCall :=
  st_history H ++ [StBundle (op_id H st_genesis) (st_tb H st_seal) (st_w 9) st_pending; StUpdate st_reorg 0].
Lemma st_moved_after {OG : OrdKey GlobalOut} H :
  state_after H (st_moved H) =
  st_state H [(st_w 8, Archived); (st_w 9, Mined 3 0)] [(st_key H st_seal st_out, (RVoid, Some (st_w 8)))]
    (minsert (st_go H st_seal 9) 42 [(st_go H st_seal 8, 42)]) /\
  sall_succeed H ms_empty (st_moved H).
Proof.
  destruct (st_history_after H) as [E0 S0].
  set (s0 := st_state H [(st_w 8, Tentative)] [(st_key H st_seal st_out, (RVoid, Some (st_w 8)))] [(st_go H st_seal 8, 42)]) in *.
  set (s1 := st_state H [(st_w 8, Tentative); (st_w 9, Tentative)] [(st_key H st_seal st_out, (RVoid, Some (st_w 8)))]
    (minsert (st_go H st_seal 9) 42 [(st_go H st_seal 8, 42)])).
  assert (E1 : state_call H (StBundle (op_id H st_genesis) (st_tb H st_seal) (st_w 9) st_pending) s0 = (s1, Ok tt)).
  { unfold s0. rewrite (st_bundle H st_seal 9 Tentative st_pending _ _ _ st_out); try reflexivity.
    unfold mhas. cbn [mget]. rewrite keqb_refl. reflexivity. }
  assert (E2 : state_call H (StUpdate st_reorg 0) s1 =
    (st_state H [(st_w 8, Archived); (st_w 9, Mined 3 0)] [(st_key H st_seal st_out, (RVoid, Some (st_w 8)))]
    (minsert (st_go H st_seal 9) 42 [(st_go H st_seal 8, 42)]), Ok tt)) by reflexivity.
  split.
  - unfold state_after, st_moved. rewrite state_calls_app. fold (state_after H (st_history H)). rewrite E0.
    unfold state_calls. cbn [fold_left]. rewrite E1. cbn [fst]. rewrite E2. reflexivity.
  - unfold st_moved. unfold state_after, state_calls in E0. revert E0 S0. unfold st_history. cbn [app sall_succeed fold_left].
    intros E0 (A & B & _). split; [exact A|]. split; [exact B|]. rewrite E0.
    split; [exists s1; exact E1|]. rewrite E1. cbn [fst]. split; [eexists; exact E2|exact I].
Qed.

(** Two witnesses of one operation: the allocation stays with the first one, and is gone
    although the second one is mined. *)
Theorem C27_allocations_refuted : ~ forall (OG : OrdKey GlobalOut) H history cid c k a,
  collision_free H -> history_sorted H history -> sall_succeed H ms_empty history ->
  contract_state (state_after H history) cid = Ok c ->
  (exists call ow o, In call history /\ imports H call cid ow o /\ reveals H o ow k a) ->
  live (state_after H history) (oa_witness a) -> In a (outs_all k c).
Proof.
  intros HA. destruct (ex_intro _ ideal_hashes ideal_collision_free : exists H, collision_free H) as [H HC].
  set (OG := ex_ord). destruct (st_moved_after H) as [Es Hok].
  assert (HS : history_sorted H (st_moved H)).
  { intros c cid ow o Hin. unfold st_moved in Hin. apply in_app_or in Hin. destruct Hin as [Hin|[<-|[<-|[]]]].
    - apply (st_history_sorted H c cid ow o Hin).
    - simpl. intros (-> & [<-|[]] & ->). split; repeat constructor.
    - intros []. }
  destruct (proj2 (contract_state_ok (state_after H (st_moved H)) (op_id H st_genesis))) as [c Ec].
  { rewrite Es. simpl. rewrite keqb_refl. eauto. }
  set (a := {| oa_opout := fst (st_key H st_seal st_out); oa_seal := st_out; oa_state := RVoid; oa_witness := Some (st_w 9) |}).
  specialize (HA OG H (st_moved H) _ c KDeclarative a HC HS Hok Ec).
  assert (In a (outs_all KDeclarative c)) as Hin.
  { apply HA.
    - exists (StBundle (op_id H st_genesis) (st_tb H st_seal) (st_w 9) st_pending), (OWTransition (st_w 9) 3), (st_trans st_seal).
      split; [simpl; auto|]. split; [simpl; auto|].
      exists 4, {| ta_kind := KDeclarative; ta_list := [Revealed st_seal RVoid] |}, 0%nat, st_seal, RVoid.
      split; [simpl; auto|]. split; [reflexivity|]. split; [reflexivity|].
      split; [apply assign_output_spec, st_assigned|]. auto.
    - rewrite Es. simpl. exists (Mined 3 0). split; [reflexivity|discriminate]. }
  apply (outs_all_spec _ _ _ _ _ (safter_wf H (st_moved H)) Ec) in Hin. destruct Hin as [(cs & Hc & Hg) _].
  rewrite Es in Hc. simpl in Hc. rewrite keqb_refl in Hc. apply Some_inj in Hc. subst cs. simpl in Hg.
  change (_, st_out) with (st_key H st_seal st_out) in Hg. rewrite keqb_refl in Hg. discriminate.
Qed.

(** The hypotheses of the theorems on C26 and C27 hold for it, with one allocation shown. *)
Example C27_example : forall (OG : OrdKey GlobalOut) H, collision_free H ->
  sall_succeed H ms_empty (st_history H) /\ history_sorted H (st_history H) /\ one_witness H (st_history H) /\
  shas_room (state_after H (st_history H)) /\
  exists c, contract_state (state_after H (st_history H)) (op_id H st_genesis) = Ok c /\
    outs_all KDeclarative c =
      [{| oa_opout := {| oo_op := op_id H (st_trans st_seal); oo_ty := 4; oo_no := 0 |}; oa_seal := st_out;
          oa_state := RVoid; oa_witness := Some (st_w 8) |}] /\
    mc_rights c {| xo_layer := Bitcoin; xo_txid := 5; xo_vout := 0 |} 4 = 1.
Proof.
  intros OG H HC. destruct (st_history_after H) as [Es Hok]. split; [exact Hok|].
  split; [apply st_history_sorted|]. split; [|split].
  - intros c c' cid ow ow' o o' [<-|[<-|[]]] [<-|[<-|[]]]; simpl.
    + intros [-> [[-> ->]|[(wb & [] & _)|(w & [] & _)]]] [_ [[-> ->]|[(wb' & [] & _)|(w' & [] & _)]]] _. auto.
    + intros [-> [[-> ->]|[(wb & [] & _)|(w & [] & _)]]] _ _. right. simpl. intros ty ta no seal st [].
    + intros (-> & [<-|[]] & ->) [_ [[-> ->]|[(wb & [] & _)|(w & [] & _)]]] Eid.
      apply (same_id_conceal _ _ _ HC) in Eid. discriminate.
    + intros (-> & [<-|[]] & ->) (_ & [<-|[]] & ->) _. auto.
  - rewrite Es. split; [reflexivity|]. split; [reflexivity|]. intros cid cs. simpl.
    destruct (keqb cid (op_id H st_genesis)); [|discriminate]. intros Ec. apply Some_inj in Ec. subst cs.
    split; [intros []; reflexivity|]. intros ty g Hg. simpl in Hg. destruct (keqb ty 7); [|discriminate].
    apply Some_inj in Hg. subst g. reflexivity.
  - rewrite Es. unfold contract_state. cbn [st_state ms_contracts mget]. rewrite keqb_refl. cbn [ok_or rbind].
    eexists. split; [reflexivity|]. unfold mc_rights, outs_at, outs_all.
    match goal with |- filter (check_witness ?f) _ = _ /\ _ => assert (Ef : f = [(st_w 8, Tentative)]) by reflexivity end.
    cbn [mc_filter mc_state] in *. rewrite Ef. split; reflexivity.
Qed.

(** ** C28: global state of an archived witness is still reported. *)
Theorem C28_global_state_refuted : ~ forall (OG : OrdKey GlobalOut) H history cid c ty l ord d,
  collision_free H -> history_sorted H history -> sall_succeed H ms_empty history ->
  contract_state (state_after H history) cid = Ok c -> global_values c ty = Some l -> In (ord, d) l ->
  exists call ow o go, In call history /\ imports H call cid ow o /\ shows H o ow ty go d /\
    placed (state_after H history) go ord /\ live (state_after H history) (op_witness ow).
Proof.
  intros HA. destruct (ex_intro _ ideal_hashes ideal_collision_free : exists H, collision_free H) as [H HC].
  set (OG := ex_ord). destruct (st_history_after H) as [Es Hok].
  set (h := st_history H ++ [StUpdate st_reorg 0]).
  assert (Eh : state_after H h = st_state H [(st_w 8, Archived)] [(st_key H st_seal st_out, (RVoid, Some (st_w 8)))]
                 [(st_go H st_seal 8, 42)]).
  { unfold h, state_after. rewrite state_calls_app. fold (state_after H (st_history H)). rewrite Es. reflexivity. }
  assert (Hokh : sall_succeed H ms_empty h).
  { unfold h, st_history. unfold state_after, state_calls in Es. revert Es Hok. unfold st_history. cbn [app sall_succeed fold_left].
    intros Es (A & B & _). split; [exact A|]. split; [exact B|]. rewrite Es. split; [eexists; reflexivity|exact I]. }
  assert (HS : history_sorted H h).
  { intros c cid ow o Hin. apply in_app_or in Hin. destruct Hin as [Hin|[<-|[]]]; [apply (st_history_sorted H c cid ow o Hin)|intros []]. }
  destruct (proj2 (contract_state_ok (state_after H h) (op_id H st_genesis))) as [c Ec].
  { rewrite Eh. simpl. rewrite keqb_refl. eauto. }
  assert (EG : global_values c 7 = Some [(GOTransition (op_id H (st_trans st_seal)) 0 3 0 Archived, 42)]).
  { rewrite Eh in Ec. unfold contract_state in Ec. cbn [st_state ms_contracts mget] in Ec. rewrite keqb_refl in Ec.
    cbn [ok_or rbind] in Ec. apply Ok_inj in Ec. subst c. reflexivity. }
  destruct (HA OG H h _ c 7 _ _ 42 HC HS Hokh Ec EG (or_introl eq_refl)) as (call & ow & o & go & _ & _ & Hsh & Hp & Hl).
  destruct Hsh as (vals & no & _ & _ & ->). unfold placed in Hp. cbn [go_witness] in Hp.
  destruct ow as [|w t|w t]; cbn [op_witness live] in Hl.
  - discriminate.
  - destruct Hp as (x & Hx & E). injection E as _ _ _ _ <-. destruct Hl as (y & Hy & Hv). congruence.
  - destruct Hp as (x & Hx & E). discriminate.
Qed.

Example C28_example : forall (OG : OrdKey GlobalOut) H,
  sall_succeed H ms_empty (st_history H) /\ history_sorted H (st_history H) /\
  exists c, contract_state (state_after H (st_history H)) (op_id H st_genesis) = Ok c /\
    global_values c 7 = Some [(GOTransition (op_id H (st_trans st_seal)) 0 3 0 Tentative, 42)].
Proof.
  intros OG H. destruct (st_history_after H) as [Es Hok]. split; [exact Hok|]. split; [apply st_history_sorted|].
  rewrite Es. unfold contract_state. cbn [st_state ms_contracts mget]. rewrite keqb_refl. cbn [ok_or rbind].
  eexists. split; reflexivity.
Qed.

(** ** C29: the global state iterator *)

(** Going back [n] times *)
Fixpoint gi_prevs (n : nat) (i : GIter) : GIter :=
  match n with O => i | S n => gi_prevs n (fst (gi_prev i)) end.

(** Going back from a new iterator gives the values in order, [last] repeats the value; on a
    new iterator [size] gives their number and keeps the position, and [reset] to the
    current depth keeps the position. *)
Theorem C29_iterator_partial : forall l n,
  let i := gi_prevs n (gi_new l) in
  snd (gi_prev i) = nth_error l n /\ gi_last (fst (gi_prev i)) = nth_error l n /\
  gi_size (gi_new l) = (gi_new l, len l) /\
  gi_reset (N.of_nat n) i = i.
Proof.
  intros l n i.
  assert (A : forall n j, (forall k, nth_error (gi_iter (gi_prevs n j)) k = nth_error (gi_iter j) (n + k)) /\
              gi_depth (gi_prevs n j) = gi_depth j + N.of_nat n).
  { clear. induction n as [|n IH]; intros j; cbn [gi_prevs]; [split; [reflexivity|lia]|].
    destruct (IH (fst (gi_prev j))) as [I1 I2]. split.
    - intros k. rewrite I1. simpl. destruct (gi_iter j); simpl; [destruct (n + k)%nat; reflexivity|reflexivity].
    - rewrite I2. simpl. lia. }
  destruct (A n (gi_new l)) as [A1 A2]. fold i in A1, A2. specialize (A1 0%nat). rewrite Nat.add_0_r in A1.
  cbn [gi_iter gi_new gi_depth] in A1, A2.
  assert (E : snd (gi_prev i) = nth_error l n).
  { rewrite <- A1. unfold gi_prev. simpl. destruct (gi_iter i); reflexivity. }
  split; [exact E|]. split; [exact E|]. split; [reflexivity|].
  unfold gi_reset. rewrite A2, N.add_0_l, N.compare_refl. reflexivity.
Qed.

Example C29_ex :
  let i := gi_prevs 1 (gi_new [(GOGenesis 0, 5); (GOGenesis 1, 6); (GOGenesis 2, 7)]) in
  snd (gi_prev i) = Some (GOGenesis 1, 6) /\ gi_last (fst (gi_prev i)) = Some (GOGenesis 1, 6) /\
  snd (gi_size (gi_new [(GOGenesis 0, 5); (GOGenesis 1, 6); (GOGenesis 2, 7)])) = 3 /\
  snd (gi_prev (gi_prevs 3 (gi_new [(GOGenesis 0, 5); (GOGenesis 1, 6); (GOGenesis 2, 7)]))) = None.
Proof. repeat split. Qed.

(** [size] after the first step gives what is left, and starts over. *)
Theorem C29_size_refuted : ~ forall l n,
  let i := gi_prevs n (gi_new l) in
  snd (gi_size i) = len l /\ snd (gi_prev (fst (gi_size i))) = snd (gi_prev i).
Proof.
  intros HA. specialize (HA [(GOGenesis 0, 1); (GOGenesis 1, 2)] 1%nat). destruct HA as [HA _]. discriminate.
Qed.
Theorem C29_size_position_refuted : ~ forall l n,
  let i := gi_prevs n (gi_new l) in snd (gi_prev (fst (gi_size i))) = snd (gi_prev i).
Proof. intros HA. specialize (HA [(GOGenesis 0, 1); (GOGenesis 1, 2)] 1%nat). discriminate. Qed.

(** [reset] does not go to the depth: not forward, *)
Theorem C29_reset_forward_refuted : ~ forall l d, snd (gi_prev (gi_reset d (gi_new l))) = nth_error l (N.to_nat d).
Proof. intros HA. specialize (HA [(GOGenesis 0, 1); (GOGenesis 1, 2)] 1). discriminate. Qed.
(** and not back. *)
Theorem C29_reset_back_refuted : ~ forall l n d, d < N.of_nat n ->
  snd (gi_prev (gi_reset d (gi_prevs n (gi_new l)))) = nth_error l (N.to_nat d).
Proof. intros HA. specialize (HA [(GOGenesis 0, 1); (GOGenesis 1, 2)] 1%nat 0 eq_refl). discriminate. Qed.

(** What [reset] and [size] do instead, from any position *)
Theorem C29_reset_effect : forall l n d,
  let i := gi_prevs n (gi_new l) in
  snd (gi_prev (gi_reset d i)) =
    (if d <? N.of_nat n then nth_error l (n + N.to_nat d) else nth_error l n) /\
  snd (gi_size i) = len l - N.min (len l) (N.of_nat n) /\
  snd (gi_prev (fst (gi_size i))) = nth_error l 0.
Proof.
  intros l n d i.
  assert (A : forall n j, gi_iter (gi_prevs n j) = skipn n (gi_iter j) /\
              gi_depth (gi_prevs n j) = gi_depth j + N.of_nat n /\ gi_src (gi_prevs n j) = gi_src j).
  { clear. induction n as [|n IH]; intros j; cbn [gi_prevs]; [split; [reflexivity|split; [lia|reflexivity]]|].
    destruct (IH (fst (gi_prev j))) as (I1 & I2 & I3). split; [|split].
    - rewrite I1. simpl. destruct (gi_iter j); simpl; [destruct n; reflexivity|reflexivity].
    - rewrite I2. simpl. lia.
    - rewrite I3. reflexivity. }
  destruct (A n (gi_new l)) as (A1 & A2 & A3). fold i in A1, A2, A3. cbn [gi_iter gi_new gi_depth gi_src] in A1, A2, A3.
  assert (Hd : forall m : nat, match skipn m l with [] => None | a :: _ => Some a end = nth_error l m).
  { clear. induction l as [|a l IH]; intros [|m]; simpl; auto. }
  assert (Hs : forall m k : nat, skipn k (skipn m l) = skipn (m + k) l).
  { clear. induction l as [|a l IH]; intros [|m] k; simpl; auto; destruct k; reflexivity. }
  split; [|split].
  - unfold gi_reset. rewrite A2, N.add_0_l. destruct (N.compare_spec (N.of_nat n) d) as [E|E|E].
    + rewrite (proj2 (N.ltb_ge _ _)) by lia. unfold gi_prev. simpl. rewrite A1. apply Hd.
    + rewrite (proj2 (N.ltb_ge _ _)) by lia. unfold gi_prev. simpl. rewrite N.sub_diag, A1. apply Hd.
    + rewrite (proj2 (N.ltb_lt _ _)) by lia. unfold gi_prev. simpl. rewrite A1, Hs. apply Hd.
  - simpl. rewrite A1. unfold len. rewrite skipn_length. lia.
  - simpl. rewrite A3. destruct l; reflexivity.
Qed.

(** ** C30: updating witnesses *)

Theorem C30_statuses : forall (OG : OrdKey GlobalOut) H history r after,
  let s := state_after H history in
  exists s' res, update_witnesses r after s = (s', Ok res) /\
    (forall w old new, mget w (ms_witnesses s) = Some old -> due after old -> r w = Some new ->
       mget w (ms_witnesses s') = Some new) /\
    (forall w old, mget w (ms_witnesses s) = Some old -> ~ due after old \/ r w = None ->
       mget w (ms_witnesses s') = Some old) /\
    mkeys (ms_witnesses s') = mkeys (ms_witnesses s) /\
    ms_contracts s' = ms_contracts s /\
    (forall w, In w (ur_failed res) <->
       exists old, mget w (ms_witnesses s) = Some old /\ due after old /\ r w = None).
Proof.
  intros OG H history r after s. unfold update_witnesses. eexists. eexists. split; [reflexivity|].
  assert (G : forall w, mget w (ms_witnesses (fst (update_witnesses r after s))) =
              option_map (new_status r after w) (mget w (ms_witnesses s))) by (intros w; apply update_witnesses_get).
  unfold update_witnesses in G. cbn [fst] in G.
  split; [|split; [|split; [|split]]].
  - intros w old new Ho Hd Hr. rewrite G, Ho. simpl. unfold new_status. apply due_skip in Hd. rewrite Hd, Hr. reflexivity.
  - intros w old Ho Hc. rewrite G, Ho. simpl. unfold new_status. destruct (skip_witness after old) eqn:E; [reflexivity|].
    apply due_skip in E. destruct Hc as [Hc|Hc]; [contradiction|]. rewrite Hc. reflexivity.
  - simpl. unfold mkeys. rewrite map_map. reflexivity.
  - reflexivity.
  - intros w. cbn [ur_failed]. rewrite sfrom_In, filter_In, in_map_iff. split.
    + intros [([w' old] & E & Hin) Hr]. simpl in E. subst w'. apply filter_In in Hin. destruct Hin as [Hin Hs].
      exists old. split; [apply In_mget; [apply (safter_wf H history)|exact Hin]|].
      split; [apply due_skip; simpl in Hs; destruct (skip_witness after old); [discriminate|reflexivity]|].
      destruct (r w); [discriminate|reflexivity].
    + intros (old & Ho & Hd & Hr). split; [|rewrite Hr; reflexivity]. exists (w, old). split; [reflexivity|].
      apply filter_In. split; [apply mget_In, Ho|]. simpl. apply due_skip in Hd. rewrite Hd. reflexivity.
Qed.

(** The counter counts the witnesses which were due, whether resolved or not, *)
Definition is_due (after : N) (p : WitnessId * WitnessOrd) : bool :=
  match snd p with Mined height _ => N.max 1 after <=? height | _ => true end.
Theorem C30_counter_partial : forall r after s s' res,
  update_witnesses r after s = (s', Ok res) ->
  ur_succeeded res = len (filter (is_due after) (ms_witnesses s)).
Proof.
  intros r after s s' res E. unfold update_witnesses in E. injection E as _ <-. cbn [ur_succeeded].
  f_equal. apply filter_ext. intros [w ord]. unfold is_due, skip_witness. simpl.
  destruct ord; try reflexivity. rewrite N.ltb_antisym, negb_involutive. reflexivity.
Qed.
(** and not only those which were resolved. *)
Theorem C30_counter_refuted : ~ forall (OG : OrdKey GlobalOut) H history r after s' res,
  update_witnesses r after (state_after H history) = (s', Ok res) ->
  ur_succeeded res = len (filter (fun p => is_due after p && match r (fst p) with Some _ => true | None => false end)
                                 (ms_witnesses (state_after H history))).
Proof.
  intros HA. destruct (ex_intro _ ideal_hashes ideal_collision_free : exists H, collision_free H) as [H HC].
  specialize (HA ex_ord H (st_history H) (fun _ => None) 0). destruct (@st_history_after ex_ord H) as [Es _].
  rewrite Es in HA. specialize (HA _ _ eq_refl). discriminate.
Qed.

Example C30_example : forall (OG : OrdKey GlobalOut) H,
  mget (st_w 8) (ms_witnesses (state_after H (st_history H))) = Some Tentative /\ due 0 Tentative /\
  st_reorg (st_w 8) = Some Archived /\ ~ due 5 (Mined 4 0).
Proof. intros OG H. destruct (st_history_after H) as [-> _]. simpl. repeat split; auto. Qed.

(** ** C31: choosing a valid witness *)

Definition is_live (s : MemState) (w : WitnessId) : Prop :=
  exists ord, mget w (ms_witnesses s) = Some ord /\ ord <> Archived.

(** A witness returned is the first valid one; the choice does not panic; if all the given
    witnesses are known it fails only when all are archived. *)
Theorem C31_selected_partial : forall s ws,
  (forall w, select_valid_witness s ws = Ok w ->
     exists before after, ws = before ++ w :: after /\ is_live s w /\ forall x, In x before -> ~ is_live s x) /\
  select_valid_witness s ws <> Panic /\
  ((forall w, In w ws -> exists ord, mget w (ms_witnesses s) = Some ord) ->
   forall e, select_valid_witness s ws = Err e -> e = AbsentValidWitness /\ forall w, In w ws -> ~ is_live s w).
Proof.
  intros s ws. induction ws as [|w0 ws IH]; simpl.
  - split; [discriminate|]. split; [discriminate|]. intros _ e E. injection E as <-. split; [reflexivity|intros w []].
  - destruct IH as (A & B & C). unfold is_valid_witness.
    destruct (mget w0 (ms_witnesses s)) as [ord|] eqn:E0; cbn [ok_or rbind].
    + destruct (ord_valid ord) eqn:Ev.
      * split; [|split; [discriminate|discriminate]]. intros w E. injection E as <-. exists [], ws.
        split; [reflexivity|]. split; [exists ord; split; [exact E0|apply ord_valid_spec, Ev]|intros x []].
      * assert (Hn : ~ is_live s w0).
        { intros (o & Ho & Hv). rewrite E0 in Ho. apply Some_inj in Ho. subst o. apply ord_valid_spec in Hv. congruence. }
        split; [|split; [exact B|]].
        -- intros w E. destruct (A w E) as (b & a & -> & Hl & Hb). exists (w0 :: b), a. split; [reflexivity|].
           split; [exact Hl|]. intros x [<-|Hx]; auto.
        -- intros Hk e E. destruct (C (fun w Hw => Hk w (or_intror Hw)) e E) as [-> Ha]. split; [reflexivity|].
           intros w [<-|Hw]; auto.
    + split; [discriminate|]. split; [discriminate|]. intros Hk. destruct (Hk w0 (or_introl eq_refl)); congruence.
Qed.

(** An unknown witness before a valid one makes the choice fail. *)
Theorem C31_selected_refuted : ~ forall s ws w, In w ws -> is_live s w ->
  exists w', select_valid_witness s ws = Ok w'.
Proof.
  intros HA. set (s := {| ms_witnesses := [(st_w 8, Tentative)]; ms_contracts := [] |}).
  destruct (HA s [st_w 7; st_w 8] (st_w 8)) as [w' E].
  - right; left; reflexivity.
  - exists Tentative. split; [reflexivity|discriminate].
  - discriminate.
Qed.

Example C31_example :
  select_valid_witness {| ms_witnesses := [(st_w 7, Archived); (st_w 8, Tentative)]; ms_contracts := [] |}
    [st_w 7; st_w 8] = Ok (st_w 8).
Proof. reflexivity. Qed.

Print Assumptions C26_state_again_partial.
Print Assumptions C27_known_contracts.
Print Assumptions C27_only_imported.
Print Assumptions C27_allocations_partial.
Print Assumptions C27_allocations_refuted.
Print Assumptions C27_queries.
Print Assumptions C27_import_status.
Print Assumptions C27_archived_and_back.
Print Assumptions C28_global_state_partial.
Print Assumptions C28_global_state_refuted.
Print Assumptions C29_iterator_partial.
Print Assumptions C29_size_refuted.
Print Assumptions C29_reset_forward_refuted.
Print Assumptions C29_reset_back_refuted.
Print Assumptions C29_reset_effect.
Print Assumptions C30_statuses.
Print Assumptions C30_counter_partial.
Print Assumptions C30_counter_refuted.
Print Assumptions C31_selected_partial.
Print Assumptions C31_selected_refuted.
