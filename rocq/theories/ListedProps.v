(** * C60: every contract in the list is known to all parts of the stock *)
From Verif Require Import Base StM Core Ser MergeModel MergeSpec MergeProofs ContainerModel ContainerSpec ContainerProofs.
From Verif Require Import PIndexModel PIndexSpec PIndexProofs StateModel StateSpec StateProofs.
From Verif Require Import StashModel StashSpec StashProofs StashAgain StashProps StockModel StockProofs StockAgain StockProps.
From Verif Require Import ConsignModel ConsignSpec ConsignProofs ConsignAccept ExportSpec ExportProofs IsolationSpec IsolationProofs ConsignProps QueryModel QueryProofs QueryProps.
From Verif Require Import PIndexSpec.
Local Open Scope N_scope.

Section Listed.
Context {OG : OrdKey GlobalOut}.

Lemma reachable_filed H (HC : collision_free H) K s : reachable H K s -> well_filed H (sk_stash s).
Proof.
  intros Re. destruct (reachable_sound H HC K s Re) as [_ Gs].
  split; [intros cid g E; split; [apply (go_gen _ _ Gs _ _ E)|apply (fi_genesis _ _ (go_filed _ _ Gs) _ _ E)]|intros bid b E; apply (fi_bundle _ _ (go_filed _ _ Gs) _ _ E)].
Qed.

Lemma reachable_swf H K s : reachable H K s -> swf (sk_state s).
Proof.
  intros (l & _ & ->). destruct (after_moved H K l sk_empty) as (_ & (l2 & E & _) & _). rewrite E. apply (safter_wf H l2).
Qed.
Lemma reachable_wf H K s : reachable H K s -> wf (sk_index s).
Proof.
  intros (l & _ & ->). destruct (after_moved H K l sk_empty) as ((l1 & E & _) & _). rewrite E. apply calls_wf, wf_empty.
Qed.

Lemma state_calls_keep H cid l : forall s, swf s -> sstates s (SFContract cid) -> sstates (state_calls H l s) (SFContract cid).
Proof.
  induction l as [|c l IH]; intros s W Hs; [exact Hs|]. cbn [state_calls fold_left]. destruct (state_call H c s) as [s' r] eqn:E.
  destruct (adds_state_call H c _ _ _ E W) as (W' & _ & K & _). rewrite ?E. apply (IH s' W'). apply K; [reflexivity|exact Hs].
Qed.

(** Only consignments bring geneses. *)
Lemma geneses_same H (HC : collision_free H) K c s : well_filed H (sk_stash s) -> match c with SkAccept _ _ => False | _ => True end ->
  st_geneses (sk_stash (fst (stock_body H K c s))) = st_geneses (sk_stash s).
Proof.
  intros Wf Nc.
  assert (F : forall (A : Type) (m : STM A), frame (well_filed H) st_geneses m -> frame (inv1 H) (fun s => st_geneses (sk_stash s)) (on_stash m)).
  { intros A m Fm q Hq. specialize (Fm (sk_stash q) Hq). unfold on_stash, inv1. destruct (m (sk_stash q)) as [x r]. exact Fm. }
  assert (R : blind_rest (well_filed H) st_geneses) by (apply well_filed_rest; intros ? ? E _; exact E).
  assert (G : frame (inv1 H) (fun s => st_geneses (sk_stash s)) (stock_body H K c)).
  { destruct c as [c r|f r|k|x|r after|]; cbn [stock_body]; [contradiction| | | | |].
    - unfold fascia_body. apply frame_bind; [apply F; apply witness_any, R|]. intros _. apply frame_mfor. intros p _. unfold fascia_bundle.
      apply frame_bind; [destruct (known_subset _); [apply frame_ret|apply frame_fail]|]. intros _.
      apply frame_bind; [intros q Hq; unfold on_index, inv1 in *; destruct (pindex_bundle _ _ _ _ _) as [x' r']; split; [reflexivity|exact Hq]|]. intros _.
      apply frame_bind; [intros q Hq; unfold on_state, inv1 in *; destruct (update_from_bundle _ _ _ _ _ _) as [x' r']; split; [reflexivity|exact Hq]|]. intros _.
      apply frame_bind; [|intros; apply frame_ret]. apply F. apply bundle_any. reflexivity.
    - apply F. apply kit_any, R.
    - apply frame_bind; [|intros; apply frame_ret]. apply F. apply seal_any, R.
    - apply frame_bind; [|intros; apply frame_ret]. intros q Hq. unfold on_state, inv1 in *. destruct (update_witnesses _ _ _) as [x' r']. split; [reflexivity|exact Hq].
    - apply frame_ret. }
  apply (G s Wf).
Qed.

Lemma listed_step H (HC : collision_free H) K c s cid : reachable H K s -> stock_call_ok H c ->
  (mget cid (st_geneses (sk_stash s)) <> None -> sstates (sk_state s) (SFContract cid) /\ states (sk_index s) (FContract cid)) ->
  mget cid (st_geneses (sk_stash (fst (stock_body H K c s)))) <> None ->
  sstates (sk_state (fst (stock_body H K c s))) (SFContract cid) /\ states (sk_index (fst (stock_body H K c s))) (FContract cid).
Proof.
  intros Re Oc IH Hg. pose proof (reachable_filed H HC K s Re) as Wf. pose proof (reachable_swf H K s Re) as Ws. pose proof (reachable_wf H K s Re) as Wi.
  destruct (mget cid (st_geneses (sk_stash s))) as [g|] eqn:Eg.
  { destruct (IH ltac:(discriminate)) as [I1 I2]. destruct (body_moved H K c s) as ((l1 & E1 & _) & (l2 & E2 & _) & _). rewrite E1, E2.
    split; [apply state_calls_keep; assumption|apply PIndexProofs.calls_keep; [exact Wi|reflexivity|exact I2]]. }
  destruct c as [c r|f r|k|x|r after|].
  2-6: rewrite geneses_same, Eg in Hg; [destruct (Hg eq_refl)|exact HC|exact Wf|exact Logic.I].
  destruct (N.eq_dec (op_id H (c_genesis c)) cid) as [Ec|Nc].
  2:{ destruct (call_frame1 H cid HC K (SkAccept c r) Oc Nc s Wf) as [E _]. apply (f_equal snd) in E. cbn [record_of snd] in E. rewrite E, Eg in Hg. destruct (Hg eq_refl). }
  cbn [stock_body] in *. rewrite accept_split in *. destruct (resolve_secrets H (sk_stash s) c) as [c'|e|] eqn:Er.
  2,3: cbn [fst] in Hg; rewrite Eg in Hg; destruct (Hg eq_refl).
  assert (Eg' : c_genesis c' = c_genesis c) by (destruct (resolve_alike H _ _ _ Er) as [-> _]; reflexivity).
  destruct (state_call H (StConsignment c' r) (sk_state s)) as [st [u|e|]] eqn:E1.
  2,3: cbn [fst sk_stash] in Hg; rewrite Eg in Hg; destruct (Hg eq_refl).
  destruct (index_call H (IxConsignment c') (sk_index s)) as [ix [u'|e|]] eqn:E2.
  2,3: cbn [fst sk_stash] in Hg; rewrite Eg in Hg; destruct (Hg eq_refl).
  destruct (consume_consignment H K c' (sk_stash s)) as [sh res]. cbn [fst sk_state sk_index]. split.
  - destruct (adds_state_call H _ _ _ _ E1 Ws) as (_ & _ & _ & _ & C). apply (C u eq_refl (SFContract cid)). cbn [sgoals sannounces].
    exists c', r. rewrite Eg', Ec. auto.
  - destruct (adds_call H _ _ _ _ E2 Wi) as (_ & _ & _ & C). apply (C u' eq_refl). right. left. left. rewrite Eg', Ec. reflexivity.
Qed.
Lemma listed_known H (HC : collision_free H) K s cid : reachable H K s -> mget cid (st_geneses (sk_stash s)) <> None ->
  sstates (sk_state s) (SFContract cid) /\ states (sk_index s) (FContract cid).
Proof.
  intros (l & Hl & ->). induction l as [|c l IH] using rev_ind; [intros Hg; destruct (Hg eq_refl)|].
  unfold stock_after. rewrite fold_left_app. cbn [fold_left]. fold (stock_after H K sk_empty l).
  assert (Hl' : forall x, In x l -> stock_call_ok H x) by (intros x Hx; apply Hl, in_or_app; left; exact Hx).
  apply (listed_step H HC); [exists l; auto|apply Hl, in_or_app; right; left; reflexivity|apply IH, Hl'].
Qed.
End Listed.

(** A contract which the stock lists has a state, and its index tells its public outputs. *)
Theorem C60_listed_known : forall (OG : OrdKey GlobalOut) H K h s x,
  collision_free H -> reachable H K s -> In x (contracts H h s) ->
  (exists mc, contract_state (sk_state s) (ci_id x) = Ok mc) /\ exists l, public_opouts (sk_index s) (ci_id x) = Ok l.
Proof.
  intros OG H K h s x HC Re Hin. pose proof Re as (calls & _ & Es). pose proof (C60_contracts OG H K h calls) as (_ & Hc & _). cbv zeta in Hc.
  rewrite <- Es in Hc. apply Hc in Hin as (g & Eg & _). apply by_genesis in Eg.
  destruct (listed_known H HC K s (ci_id x) Re) as [I1 I2]; [congruence|]. split; [apply contract_state_ok, I1|].
  destruct I2 as (ci & Ec). exists (ci_public ci). unfold public_opouts. rewrite Ec. reflexivity.
Qed.

(** But a contract which has a state need not be in the list: its consignment was refused
    (C32). *)
Theorem C60_stated_listed_refuted : forall OG : OrdKey GlobalOut, ~ forall H K h s cid,
  collision_free H -> reachable H K s -> (exists mc, contract_state (sk_state s) cid = Ok mc) -> exists x, In x (contracts H h s) /\ ci_id x = cid.
Proof.
  intros OG Bad. pose (l := [SkAccept (cn_cons bit_hashes [] cn_a) no_witness]).
  destruct (Bad bit_hashes cn_merkle qx_heads (stock_after bit_hashes cn_merkle sk_empty l)
    cn_cid) as (x & Hx & _).
  - exact bit_collision_free.
  - exists l. split; [|reflexivity]. intros c [<-|[]]. apply cons_okb_ok. vm_compute. reflexivity.
  - eexists. vm_compute. reflexivity.
  - vm_compute in Hx. exact Hx.
Qed.

Example C60_listed_nonvacuous : forall OG : OrdKey GlobalOut,
  let s := cn_stock [] cn_a in
  collision_free bit_hashes /\ reachable bit_hashes cn_merkle s /\ len (contracts bit_hashes qx_heads s) = 1.
Proof. intros OG. split; [exact bit_collision_free|]. split; [apply cn_reachable; vm_compute; reflexivity|vm_compute; reflexivity]. Qed.

Print Assumptions C60_listed_known.
Print Assumptions C60_stated_listed_refuted.
