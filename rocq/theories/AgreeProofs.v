(** * Two stocks which were told the same: proofs *)
From Verif Require Import Base StM Core ContainerModel PIndexModel PIndexSpec StateModel StateSpec StateProofs StateProps StashModel StockModel StockAgain.
From Verif Require Import StockSpec StockProofs FasciaProps LedgerSpec LedgerProofs AgreeSpec.
From Verif Require EvolveProofs.
Local Open Scope N_scope.

(** ** Where the entry of a contract comes from *)

Section Descent.
Context {OG : OrdKey GlobalOut} (H : Hashes).

Definition limits (cs : ContractState) (ty : N) : option N := option_map mg_limit (mget ty (cs_global cs)).
Definition descends (schema : SchemaRec) (cid : N) (cs : ContractState) : Prop :=
  cs_schema cs = sch_id schema /\ cs_contract cs = cid /\ forall ty, limits cs ty = limits (cs_new schema cid) ty.

Lemma add_globals_limits cs opid ow o cs' : add_globals cs opid ow o = Ok cs' ->
  cs_schema cs' = cs_schema cs /\ cs_contract cs' = cs_contract cs /\ forall ty, limits cs' ty = limits cs ty.
Proof.
  unfold add_globals. generalize (op_globals o) as l. intros l. revert cs. induction l as [|p l IH]; intros cs E; cbn [rfold] in E.
  { apply Ok_inj in E as <-. auto. }
  destruct (mget (fst p) (cs_global cs)) as [g|] eqn:Eg; cbn [expect rbind] in E; [|discriminate].
  match type of E with context [rfold ?f (mg_known g) ?l0] => destruct (rfold f (mg_known g) l0) as [known|e|]; cbn [rbind] in E; try discriminate end.
  destruct (IH _ E) as (I1 & I2 & I3). split; [rewrite I1; reflexivity|]. split; [rewrite I2; reflexivity|].
  intros ty. rewrite I3. unfold limits. cbn [cs_set_global cs_global]. rewrite mget_insert.
  destruct (keqb_spec ty (fst p)) as [->|]; [rewrite Eg; reflexivity|reflexivity].
Qed.
Lemma add_assignments_same cs w opid a cs' : add_assignments cs w opid a = Ok cs' ->
  cs_schema cs' = cs_schema cs /\ cs_contract cs' = cs_contract cs /\ cs_global cs' = cs_global cs.
Proof.
  unfold add_assignments. revert cs. induction a as [|p a IH]; intros cs E; cbn [rfold] in E.
  { apply Ok_inj in E as <-. auto. }
  destruct (process _ _ _ _ _) as [outs|e|]; cbn [rbind] in E; try discriminate.
  destruct (IH _ E) as (I1 & I2 & I3). cbn [cs_set_outs cs_schema cs_contract cs_global] in *. auto.
Qed.
Lemma add_operation_descends schema cid cs ow o cs' : descends schema cid cs -> add_operation H cs ow o = Ok cs' -> descends schema cid cs'.
Proof.
  intros (D1 & D2 & D3) E. unfold add_operation in E.
  destruct (add_globals cs (op_id H o) ow o) as [cs1|e|] eqn:E1; cbn [rbind] in E; try discriminate.
  destruct (add_globals_limits _ _ _ _ _ E1) as (A1 & A2 & A3). destruct (add_assignments_same _ _ _ _ _ E) as (B1 & B2 & B3).
  split; [congruence|]. split; [congruence|]. intros ty. rewrite <- D3, <- A3. unfold limits. rewrite B3. reflexivity.
Qed.

Definition stems (Q : N -> SchemaRec -> Prop) (s : MemState) : Prop :=
  forall cid cs, mget cid (ms_contracts s) = Some cs -> exists schema, Q cid schema /\ descends schema cid cs.

Lemma on_contract_stems Q cid ow o : keeps (stems Q) (on_contract cid (fun cs => add_operation H cs ow o)).
Proof.
  intros s Hs. unfold on_contract. destruct (mget cid (ms_contracts s)) as [cs|] eqn:Ec; [|exact Hs].
  destruct (add_operation H cs ow o) as [cs'|e|] eqn:Ea; [|exact Hs|exact Hs].
  intros c x. cbn [fst set_states ms_contracts]. rewrite mget_insert. destruct (keqb_spec c cid) as [->|Ne]; [|apply Hs].
  intros E. apply Some_inj in E. subst x. destruct (Hs _ _ Ec) as (schema & Hq & Hd). exists schema. split; [exact Hq|].
  eapply add_operation_descends; eauto.
Qed.
Lemma set_witness_stems Q w ord : keeps (stems Q) (set_witness w ord).
Proof. intros s Hs. unfold set_witness. destruct (cinsert _ _ _ _); exact Hs. Qed.
Lemma resolve_stems Q r w : keeps (stems Q) (resolve r w).
Proof. intros s Hs. exact Hs. Qed.
Lemma register_stems (Q : N -> SchemaRec -> Prop) schema g : Q (contract_id H g) schema -> keeps (stems Q) (st_register H schema g).
Proof.
  intros Hq s Hs. unfold st_register. unfold bind at 1, get.
  match goal with |- stems Q (fst (bind ?m ?k s)) => assert (K : keeps (stems Q) (bind m k)); [|apply K, Hs] end.
  apply keeps_bind; [|intros _; apply on_contract_stems].
  destruct (mhas _ (ms_contracts s)); [intros s' Hs'; exact Hs'|].
  unfold cinsert. destruct (_ <? _); [|intros s' Hs'; exact Hs'].
  intros s' Hs'. unfold put. cbn [fst]. intros c x. cbn [set_states ms_contracts]. rewrite mget_insert.
  destruct (keqb_spec c (contract_id H g)) as [->|Ne]; [|apply Hs].
  intros E. apply Some_inj in E. subst x. exists schema. split; [exact Hq|]. repeat split; reflexivity.
Qed.
Lemma call_stems (Q : N -> SchemaRec -> Prop) c : (forall x r, c = StConsignment x r -> Q (contract_id H (c_genesis x)) (c_schema x)) ->
  keeps (stems Q) (state_call H c).
Proof.
  intros Hq. destruct c as [c r|cid b w r|r after]; cbn [state_call].
  - unfold update_from_consignment. apply keeps_bind; [apply register_stems, (Hq c r eq_refl)|intros _].
    apply keeps_bind; [|intros _]; apply keeps_mfor; intros x _.
    + apply keeps_mfor. intros t _. apply keeps_bind; [apply resolve_stems|intros ord].
      apply keeps_bind; [apply set_witness_stems|intros _; apply on_contract_stems].
    + destruct (extension_witness c (op_id H x)) as [w|]; [|intros s Hs; exact Hs].
      apply keeps_bind; [apply resolve_stems|intros ord].
      apply keeps_bind; [apply set_witness_stems|intros _; apply on_contract_stems].
  - unfold update_from_bundle. apply keeps_bind; [intros s Hs; exact Hs|intros s0].
    apply keeps_bind; [destruct (mhas _ _); intros s Hs; exact Hs|intros _].
    apply keeps_mfor. intros t _. apply keeps_bind; [apply resolve_stems|intros ord].
    apply keeps_bind; [apply set_witness_stems|intros _; apply on_contract_stems].
  - intros s Hs. exact Hs.
Qed.
Lemma after_stems (l : list StateCall) : stems (fun cid schema => exists c r, In (StConsignment c r) l /\ cid = op_id H (c_genesis c) /\ schema = c_schema c)
  (state_after H l).
Proof.
  unfold state_after, state_calls.
  set (Q := fun cid schema => exists c r, In (StConsignment c r) l /\ cid = op_id H (c_genesis c) /\ schema = c_schema c).
  assert (G : stems Q ms_empty) by (intros c x; discriminate).
  assert (HQ : forall x r, In (StConsignment x r) l -> Q (contract_id H (c_genesis x)) (c_schema x)) by (intros x r Hx; exists x, r; auto).
  clearbody Q. revert G HQ. generalize ms_empty. induction l as [|c l' IH]; intros s Hs HQ; cbn [fold_left]; [exact Hs|].
  apply IH; [|intros x r Hx; apply (HQ x r); right; exact Hx]. apply call_stems; [|exact Hs]. intros x r ->. apply (HQ x r). left. reflexivity.
Qed.
End Descent.

(** ** States after histories about the same *)

Section Same.
Context {OG : OrdKey GlobalOut} (H : Hashes) (HC : collision_free H).

Lemma option_same {A} (a b : option A) : (forall x, a = Some x <-> b = Some x) -> a = b.
Proof. intros E. destruct a as [x|]; [symmetry; apply E; reflexivity|]. destruct b as [y|]; [apply E; reflexivity|reflexivity]. Qed.

Definition fine (l : list StateCall) : Prop := history_sorted H l /\ sall_succeed H ms_empty l /\ one_witness H l.

Lemma out_stored l cid k a : fine l -> (exists call ow o, In call l /\ imports H call cid ow o /\ reveals H o ow k a) ->
  sstates (state_after H l) (SFOut cid k a).
Proof.
  intros (HS & Hok & HW) (call & ow & o & Hin & Hi & Hr).
  destruct (safter_complete H l call (SFOut cid k a) Hok Hin) as (b & Hb & Hs); [simpl; eauto|].
  pose proof Hs as Hs'. apply safter_sound in Hs'. destruct Hs' as (call' & Hin' & ow' & o' & Hi' & Hr').
  assert (Hab : same_out a b) by (destruct Hb; split; congruence).
  destruct (reveals_fun H o o' ow ow' k k a b HC (HS _ _ _ _ Hin Hi) (HS _ _ _ _ Hin' Hi') Hr Hr' Hab)
    as (_ & Est & Eid & seal & (ty & ta & no & st & Hx & Hn) & So & So').
  assert (Ew : op_witness ow = op_witness ow').
  { destruct (HW _ _ _ _ _ _ _ Hin Hin' Hi Hi' Eid) as [Ew|Hnone]; [exact Ew|].
    eapply seal_output_witness; [eapply Hnone; eauto|exact So|exact So']. }
  assert (Eq : a = b).
  { destruct Hr as (? & ? & ? & ? & ? & _ & _ & _ & _ & _ & _ & Wa).
    destruct Hr' as (? & ? & ? & ? & ? & _ & _ & _ & _ & _ & _ & Wb).
    destruct Hab as [A1 A2]. destruct a, b; simpl in *. congruence. }
  rewrite Eq. exact Hs.
Qed.
Lemma global_stored l cid ty go d : fine l -> (exists call ow o, In call l /\ imports H call cid ow o /\ shows H o ow ty go d) ->
  sstates (state_after H l) (SFGlobal cid ty go d).
Proof.
  intros (HS & Hok & HW) (call & ow & o & Hin & Hi & Hr).
  destruct (safter_complete H l call (SFGlobal cid ty go d) Hok Hin) as (d' & Hs); [simpl; eauto|].
  pose proof Hs as Hs'. apply safter_sound in Hs'. destruct Hs' as (call' & Hc' & ow' & o' & Hi' & Hsh').
  assert (d' = d) as -> by (eapply (shows_fun H o' o); eauto). exact Hs.
Qed.

Lemma same_entry l l' cid cs cs' : fine l -> fine l' ->
  (forall ow o, (exists c, In c l /\ imports H c cid ow o) <-> (exists c, In c l' /\ imports H c cid ow o)) ->
  (forall c r c' r', In (StConsignment c r) l -> In (StConsignment c' r') l' ->
     op_id H (c_genesis c) = cid -> op_id H (c_genesis c') = cid -> c_schema c = c_schema c') ->
  mget cid (ms_contracts (state_after H l)) = Some cs -> mget cid (ms_contracts (state_after H l')) = Some cs' -> cs = cs'.
Proof.
  intros F F' Hi Hsch E E'.
  destruct (after_stems H l cid cs E) as (sc & (c & r & Hc & Ec & ->) & D1 & D2 & D3).
  destruct (after_stems H l' cid cs' E') as (sc' & (c' & r' & Hc' & Ec' & ->) & D1' & D2' & D3').
  assert (Esc : c_schema c = c_schema c') by (eapply Hsch; eauto).
  pose proof (swf_cs _ (safter_wf H l) _ _ E) as [So Sg]. pose proof (swf_cs _ (safter_wf H l') _ _ E') as [So' Sg'].
  apply EvolveProofs.cs_ext.
  - congruence.
  - congruence.
  - apply msorted_ext; [apply (after_gsorted H l _ _ E)|apply (after_gsorted H l' _ _ E')|].
    intros ty. assert (EL : limits cs ty = limits cs' ty) by (rewrite D3, D3', Esc; reflexivity). unfold limits in EL.
    destruct (mget ty (cs_global cs)) as [g|] eqn:Eg, (mget ty (cs_global cs')) as [g'|] eqn:Eg'; try discriminate; [|reflexivity].
    cbn in EL. apply Some_inj in EL. f_equal. destruct g as [kn lim], g' as [kn' lim']. cbn in EL. subst lim'. f_equal.
    apply msorted_ext; [apply (Sg _ _ Eg)|apply (Sg' _ _ Eg')|]. intros go.
    assert (HK : forall d, mget go kn = Some d <-> mget go kn' = Some d).
    { intros d. split; intros Hd.
      - assert (Hs : sstates (state_after H l) (SFGlobal cid ty go d)) by (exists cs, {| mg_known := kn; mg_limit := lim |}; auto).
        apply safter_sound in Hs as (call & Hin & ow & o & Him & Hsh). destruct (proj1 (Hi ow o)) as (call' & Hin' & Him'); [eauto|].
        destruct (global_stored l' cid ty go d F') as (cs1 & g1 & X1 & X2 & X3); [eauto 10|].
        rewrite E' in X1. apply Some_inj in X1. subst cs1. rewrite Eg' in X2. apply Some_inj in X2. subst g1. exact X3.
      - assert (Hs : sstates (state_after H l') (SFGlobal cid ty go d)) by (exists cs', {| mg_known := kn'; mg_limit := lim |}; auto).
        apply safter_sound in Hs as (call & Hin & ow & o & Him & Hsh). destruct (proj2 (Hi ow o)) as (call' & Hin' & Him'); [eauto|].
        destruct (global_stored l cid ty go d F) as (cs1 & g1 & X1 & X2 & X3); [eauto 10|].
        rewrite E in X1. apply Some_inj in X1. subst cs1. rewrite Eg in X2. apply Some_inj in X2. subst g1. exact X3. }
    exact (option_same _ _ HK).
  - intros k. apply msorted_ext; [apply So|apply So'|]. intros [op seal].
    assert (HK : forall p, mget (op, seal) (cs_outs k cs) = Some p <-> mget (op, seal) (cs_outs k cs') = Some p).
    { intros [st w]. set (a := {| oa_opout := op; oa_seal := seal; oa_state := st; oa_witness := w |}). split; intros Hp.
      - assert (Hs : sstates (state_after H l) (SFOut cid k a)) by (exists cs; auto).
        apply safter_sound in Hs as (call & Hin & ow & o & Him & Hsh). destruct (proj1 (Hi ow o)) as (call' & Hin' & Him'); [eauto|].
        destruct (out_stored l' cid k a F') as (cs1 & X1 & X2); [eauto 10|].
        rewrite E' in X1. apply Some_inj in X1. subst cs1. exact X2.
      - assert (Hs : sstates (state_after H l') (SFOut cid k a)) by (exists cs'; auto).
        apply safter_sound in Hs as (call & Hin & ow & o & Him & Hsh). destruct (proj2 (Hi ow o)) as (call' & Hin' & Him'); [eauto|].
        destruct (out_stored l cid k a F) as (cs1 & X1 & X2); [eauto 10|].
        rewrite E in X1. apply Some_inj in X1. subst cs1. exact X2. }
    exact (option_same _ _ HK).
Qed.

Lemma same_state l l' cid : fine l -> fine l' ->
  (forall ow o, (exists c, In c l /\ imports H c cid ow o) <-> (exists c, In c l' /\ imports H c cid ow o)) ->
  (forall c r c' r', In (StConsignment c r) l -> In (StConsignment c' r') l' ->
     op_id H (c_genesis c) = cid -> op_id H (c_genesis c') = cid -> c_schema c = c_schema c') ->
  ((exists c r, In (StConsignment c r) l /\ cid = op_id H (c_genesis c)) <-> (exists c r, In (StConsignment c r) l' /\ cid = op_id H (c_genesis c))) ->
  (forall w, mget w (ms_witnesses (state_after H l)) = mget w (ms_witnesses (state_after H l'))) ->
  contract_state (state_after H l) cid = contract_state (state_after H l') cid.
Proof.
  intros F F' Hi Hsch Hc Hw.
  assert (Ew : ms_witnesses (state_after H l) = ms_witnesses (state_after H l')).
  { apply msorted_ext; [apply safter_wf|apply safter_wf|exact Hw]. }
  unfold contract_state. rewrite Ew.
  destruct (mget cid (ms_contracts (state_after H l))) as [cs|] eqn:E, (mget cid (ms_contracts (state_after H l'))) as [cs'|] eqn:E'.
  - rewrite (same_entry l l' cid cs cs' F F' Hi Hsch E E'). reflexivity.
  - exfalso. assert (Hs : sstates (state_after H l) (SFContract cid)) by (exists cs; exact E).
    apply safter_sound in Hs as (call & Hin & c & r & -> & Eg). destruct (proj1 Hc) as (c' & r' & Hin' & Eg'); [eauto|].
    destruct (safter_complete H l' _ (SFContract cid) (proj1 (proj2 F')) Hin') as (cs' & X); [cbn; eauto|]. congruence.
  - exfalso. assert (Hs : sstates (state_after H l') (SFContract cid)) by (exists cs'; exact E').
    apply safter_sound in Hs as (call & Hin & c & r & -> & Eg). destruct (proj2 Hc) as (c' & r' & Hin' & Eg'); [eauto|].
    destruct (safter_complete H l _ (SFContract cid) (proj1 (proj2 F)) Hin') as (cs & X); [cbn; eauto|]. congruence.
  - reflexivity.
Qed.
End Same.

(** ** Stocks *)

Section Stocks.
Context {OG : OrdKey GlobalOut} (H : Hashes) (HC : collision_free H) (K : Merkle).

Lemma agree l l' cid :
  (forall c, In c l -> ledger_call_ok H c) -> (forall c, In c l' -> ledger_call_ok H c) ->
  all_calls_succeed H K sk_empty l -> all_calls_succeed H K sk_empty l' -> told_once H l -> told_once H l' ->
  one_schema H (l ++ l') -> told_same H l l' cid -> (forall w, status l w = status l' w) ->
  agree_on (stock_after H K sk_empty l) (stock_after H K sk_empty l') cid.
Proof.
  intros Hok Hok' Hs Hs' Ho Ho' Hsch Ht Hw.
  destruct (ledger_made H HC K l Hok Hs) as (ls & L). pose proof L as (L1 & L2 & L3 & L4 & L5 & _).
  destruct (ledger_made H HC K l' Hok' Hs') as (ls' & L'). pose proof L' as (L1' & L2' & L3' & L4' & L5' & _).
  unfold agree_on. rewrite L1, L1'. apply same_state.
  - exact HC.
  - split; [exact (ledger_sorted H K _ _ Hok L)|]. split; [exact L2|exact (ledger_one H K _ _ L Ho)].
  - split; [exact (ledger_sorted H K _ _ Hok' L')|]. split; [exact L2'|exact (ledger_one H K _ _ L' Ho')].
  - intros ow o. rewrite L3, L3'. split; intros (o0 & x & Hx & ->); exists o0, x; (split; [apply Ht, Hx|reflexivity]).
  - intros c r c' r' Hc Hc' Ec Ec'.
    destruct (proj1 (L4 (fun g sc => g = c_genesis c /\ sc = c_schema c))) as (c0 & r0 & Hc0 & Eg & Es); [eauto|].
    destruct (proj1 (L4' (fun g sc => g = c_genesis c' /\ sc = c_schema c'))) as (c1 & r1 & Hc1 & Eg' & Es'); [eauto|].
    rewrite <- Es, <- Es'. apply (Hsch c0 r0 c1 r1); [apply in_or_app; auto|apply in_or_app; auto|congruence].
  - rewrite (L4 (fun g _ => cid = op_id H g)), (L4' (fun g _ => cid = op_id H g)).
    assert (Q : forall k k' : list StockCall, (forall ow o x, told H k cid ow o x -> told H k' cid ow o x) ->
      (exists c r, In (SkAccept c r) k /\ cid = op_id H (c_genesis c)) -> exists c r, In (SkAccept c r) k' /\ cid = op_id H (c_genesis c)).
    { intros k k' Hk (c & r & Hc & Ec). apply in_split in Hc as (bf & af & ->).
      destruct (Hk OWGenesis (c_genesis c) None) as (bf' & call & af' & term & -> & Hx & _).
      { exists bf, (SkAccept c r), af, None. split; [reflexivity|]. split; [split; [exact Ec|auto]|]. intros s _. discriminate. }
      destruct call as [c' r'|f r'|x|x|r' after|]; cbn [shown] in Hx; try contradiction.
      - exists c', r'. split; [apply in_or_app; cbn; auto|apply Hx].
      - destruct Hx as (b & _ & _ & X & _). discriminate. }
    split; apply Q; intros ow o x; apply Ht.
  - intros w. rewrite <- L1, <- L1', L5, L5'. apply Hw.
Qed.

(** *** Calls in another order *)

Lemma told_set l : seals_first l -> forall cid ow o x, told H l cid ow o x <->
  exists call term, In call l /\ shown H call cid ow o term /\ opens H l term x.
Proof.
  intros (seals & rest & -> & Ha & Hb) cid ow o x. split.
  - intros (bf & call & af & term & E & Hs & Ho). exists call, term. split; [rewrite E; apply in_or_app; cbn; auto|]. split; [exact Hs|].
    assert (Hin : forall s, In (SkSeal s) (seals ++ rest) -> In (SkSeal s) bf).
    { intros s Hx. apply in_app_or in Hx as [Hx|Hx]; [|destruct (Hb _ Hx)].
      assert (Hc : forall c, In c seals -> c <> call) by (intros c Hc ->; destruct (Ha _ Hc) as (y & ->); destruct Hs).
      clear Ha Hb Ho Hs. revert bf E. induction seals as [|c seals IH]; intros bf E; [destruct Hx|].
      destruct bf as [|c' bf]; cbn [app] in E; [exfalso; apply (Hc c); [left; reflexivity|congruence]|].
      injection E as -> E. destruct Hx as [->|Hx]; [left; reflexivity|]. right. apply IH; [exact Hx| |exact E].
      intros y Hy. apply Hc. right. exact Hy. }
    destruct x as [y|]; cbn [opens] in *.
    + destruct Ho as [-> Ho]. split; [reflexivity|]. rewrite E. apply in_or_app. auto.
    + intros s Hx. apply Ho, Hin, Hx.
  - intros (call & term & Hc & Hs & Ho). apply in_app_or in Hc as [Hc|Hc]; [destruct (Ha _ Hc) as (y & ->); destruct Hs|].
    apply in_split in Hc as (r1 & r2 & ->). exists (seals ++ r1), call, r2, term. split; [rewrite <- app_assoc; reflexivity|]. split; [exact Hs|].
    destruct x as [y|]; cbn [opens] in *.
    + destruct Ho as [-> Ho]. split; [reflexivity|]. apply in_or_app. apply in_app_or in Ho as [Ho|Ho]; [auto|destruct (Hb _ Ho)].
    + intros s Hx. apply Ho. apply in_or_app. apply in_app_or in Hx as [Hx|Hx]; [auto|]. right. apply in_or_app. auto.
Qed.
Lemma told_same_set l l' cid : seals_first l -> seals_first l' -> same_calls l l' -> told_same H l l' cid.
Proof.
  intros F F' Hs ow o x. rewrite (told_set l F), (told_set l' F'). split; intros (call & term & Hc & Hx & Ho); exists call, term.
  - split; [apply Hs, Hc|]. split; [exact Hx|]. destruct x as [y|]; cbn [opens] in *.
    + destruct Ho as [-> Ho]. split; [reflexivity|apply Hs, Ho].
    + intros s Hy. apply Ho, Hs, Hy.
  - split; [apply Hs, Hc|]. split; [exact Hx|]. destruct x as [y|]; cbn [opens] in *.
    + destruct Ho as [-> Ho]. split; [reflexivity|apply Hs, Ho].
    + intros s Hy. apply Ho, Hs, Hy.
Qed.

Lemma answered_bundles w0 r l p : forall s, sall_succeed H s (map (st_of w0 r) l) -> In p l -> b_known (snd p) <> [] -> r w0 <> None.
Proof.
  induction l as [|q l IH]; intros s Hs Hp Hn; [destruct Hp|]. cbn [map sall_succeed] in Hs. destruct Hs as [(s1 & E1) Hs].
  destruct Hp as [->|Hp]; [|exact (IH _ Hs Hp Hn)].
  destruct (C27_import_status OG H _ r _ _ _ (or_intror (ex_intro _ (fst p) (ex_intro _ (snd p) (ex_intro _ w0 eq_refl)))) E1) as [_ T].
  apply (T eq_refl w0). split; [exact Hn|reflexivity].
Qed.
Lemma answered call s w old : ledger_call_ok H call -> snd (stock_body H K call s) = Ok tt -> asks call w = true ->
  status_after w old call <> None.
Proof.
  intros Ok E Ha. destruct (stock_body H K call s) as [s' e] eqn:Eb. cbn [snd] in E. subst e.
  destruct call as [c r|f r|k|x|r after|]; try discriminate; cbn [stock_body status_after] in *; rewrite Ha.
  - destruct Ok as (Ok & Mt & Mo). apply accept_ok in Eb as (c' & Er & Es & _ & Eh).
    destruct (resolved_rel H _ c c' HC Mt Mo Er) as [Ec F].
    destruct (C27_import_status OG H (StConsignment c' r) r _ _ _ (or_introl (ex_intro _ c' eq_refl)) Es) as [_ T].
    apply (T eq_refl). apply (asks_accept c r) in Ha. destruct Ha as (wb & Hw & Hn & <-).
    destruct (Forall2_l _ _ _ _ F Hw) as (wb' & Hwb & W). exists wb'. split; [exact Hwb|].
    split; [apply (nonempty_rel H HC _ _ _ _ W), Hn|apply W].
  - apply (fascia_ok H K) in Eb. cbv zeta in Eb. destruct Eb as (_ & _ & (As & _) & _). cbn [asks] in Ha.
    apply andb_true_iff in Ha as [Hk Hx]. apply keqb_true in Hk. subst w. apply existsb_exists in Hx as (p & Hp & Hn).
    apply (answered_bundles _ r _ p _ As Hp). apply neg_len, Hn.
Qed.

Lemma status_known l w : (forall c, In c l -> ledger_call_ok H c) -> all_calls_succeed H K sk_empty l ->
  (status l w <> None <-> exists c, In c l /\ asks c w = true).
Proof.
  induction l as [|call l IH] using rev_ind; intros Hok Hs.
  - cbn. split; [congruence|intros (c & [] & _)].
  - apply all_succeed_snoc in Hs as [Hs E]. assert (Hok' : forall c, In c l -> ledger_call_ok H c) by (intros c Hc; apply Hok, in_or_app; auto).
    specialize (IH Hok' Hs). assert (Hc : ledger_call_ok H call) by (apply Hok, in_or_app; cbn; auto).
    pose proof (answered call _ w (status l w) Hc E) as Ha.
    assert (Es : status (l ++ [call]) w = status_after w (status l w) call) by (unfold status; rewrite fold_left_app; reflexivity).
    rewrite Es. split.
    + intros Hn. destruct (asks call w) eqn:Ea; [exists call; split; [apply in_or_app; cbn; auto|exact Ea]|].
      assert (Hl : status l w <> None).
      { destruct call as [c r|f r|k|x|r after|]; cbn [status_after] in Hn; rewrite ?Ea in Hn; try exact Hn.
        destruct (status l w); [discriminate|exact Hn]. }
      apply IH in Hl as (c & Hi & Hx). exists c. split; [apply in_or_app; auto|exact Hx].
    + intros (c & Hi & Hx). destruct (asks call w) eqn:Ea; [apply Ha; reflexivity|].
      apply in_app_or in Hi as [Hi|[->|[]]]; [|congruence].
      assert (Hl : status l w <> None) by (apply IH; eauto).
      destruct call as [c0 r|f r|k|x|r after|]; cbn [status_after]; rewrite ?Ea; try exact Hl.
      destruct (status l w) as [[h t| |]|]; [|destruct (r w); discriminate|destruct (r w); discriminate|exact Hl].
      destruct (h <? N.max 1 after); [discriminate|]. destruct (r w); discriminate.
Qed.
Lemma status_positive l w t : positive_calls l -> status l w <> Some (Mined 0 t).
Proof.
  induction l as [|call l IH] using rev_ind; intros Hp; [discriminate|].
  assert (IH' : status l w <> Some (Mined 0 t)).
  { apply IH. intros c r Hc. apply Hp, in_or_app. auto. }
  assert (Hc : forall r, (exists x, call = SkAccept x r) \/ (exists x, call = SkFascia x r) \/ (exists n, call = SkUpdate r n) -> positive r).
  { intros r. apply Hp, in_or_app. cbn. auto. }
  unfold status. rewrite fold_left_app. cbn [fold_left]. fold (status l w).
  destruct call as [c r|f r|k|x|r after|]; cbn [status_after]; try exact IH'.
  - destruct (asks _ w); [apply Hc; eauto|exact IH'].
  - destruct (asks _ w); [apply Hc; eauto|exact IH'].
  - assert (Hr : r w <> Some (Mined 0 t)) by (apply Hc; eauto).
    destruct (status l w) as [[h t'| |]|] eqn:Es; try exact IH'; [|destruct (r w) eqn:Er; [exact Hr|discriminate] ..].
    destruct (h <? N.max 1 after); [exact IH'|]. destruct (r w) eqn:Er; [exact Hr|exact IH'].
Qed.
Lemma status_fresh l r w : positive_calls l -> (forall w, r w <> None) ->
  status (l ++ [SkUpdate r 0]) w = match status l w with Some _ => r w | None => None end.
Proof.
  intros Hp Hr. unfold status. rewrite fold_left_app. cbn [fold_left]. fold (status l w). cbn [status_after].
  specialize (Hr w). destruct (r w) as [new|]; [|congruence].
  destruct (status l w) as [[h t| |]|] eqn:Es; try reflexivity.
  destruct (h <? N.max 1 0) eqn:El; [|reflexivity]. apply N.ltb_lt in El. assert (h = 0) as -> by lia.
  destruct (status_positive l w t Hp Es).
Qed.

Lemma told_update l r n cid ow o x : told H (l ++ [SkUpdate r n]) cid ow o x <-> told H l cid ow o x.
Proof. rewrite told_snoc. split; [intros [Ht|(term & [] & _)]; exact Ht|auto]. Qed.
End Stocks.
