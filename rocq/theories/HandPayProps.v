(** * C90: what a composed payment spends is found

    A payment which [compose] made for an invoice spends, for the contract of the invoice, only
    what an export of the outputs it is paid from finds too; so the condition of C90 about what is
    spent is met by it. *)
From Verif Require Import Base Str StM Core Ser MergeSpec ContainerModel ContainerSpec.
From Verif Require Import PIndexModel StateModel StateSpec StashModel StashSpec StockModel.
From Verif Require Import InvoiceModel IfaceModel BuilderModel BuilderProofs ComposeModel ComposeSpec ComposeProofs ComposeMain ComposeBlank.
From Verif Require Import ConsignModel ConsignSpec ConsignProps FasciaProps AcceptSpec RecordSpec StashAgain StashProps StockProofs StockAgain StockProps ListedProps BuilderProps ComposeProps FoundProps PaySpec PayProps PayDataProps OwnProps BuilderSpec PIndexSpec GrowSpec HandSpec.
Local Open Scope N_scope.

(** The contract has state at the outpoints under one seal each, or under Opret seals only. (Of
    two seals which differ in the method alone the export sees one: C34.) *)
Definition one_seal_each (s : Stock) (cid : N) (prev : list OutSeal) : Prop :=
  forall o out oo, In o prev -> states (sk_index s) (FOut cid out oo) -> os_outpoint out = os_outpoint o ->
    os_method out = OpretFirst \/
    forall out' oo', states (sk_index s) (FOut cid out' oo') -> os_outpoint out' = os_outpoint o -> out' = out.

(** The transitions of the invoiced contract are those of the main part of the batch. *)
Lemma compose_main H D P wrap s ch od inv prev method vout priority now batch cid :
  orders_ok od -> compose H D P wrap s ch od inv prev method vout priority now = Ok batch -> InvoiceModel.contract inv = Some cid ->
  forall i, In i (batch_iter batch) -> op_contract (ti_transition i) = cid -> In i (di_iter (ba_main batch)).
Proof.
  intros Ho E Ec. set (layer := layer1 (chain_network (beneficiary inv))). unfold compose in E. cbv zeta in E. fold layer in E.
  destruct (match expiry inv with Some t => (t <? now)%Z | None => false end); [discriminate|].
  rewrite Ec in E. cbn [ok_or rbind] in E. apply rbind_ok in E as (iface & Ei & E).
  apply rbind_ok in E as ([X b] & Eb & E). cbn [fst snd] in E. apply rbind_ok in E as (a & Ea & E).
  rewrite Eb in E. cbn [rbind fst snd] in E. apply rbind_ok in E as (ben & _ & E). apply rbind_ok in E as (m & _ & E). apply rbind_ok in E as (w & Ew & E).
  apply rbind_ok in E as (w' & Ew' & E). apply rbind_ok in E as (spm & Esp & E). apply rbind_ok in E as (blanks & Ebl & E).
  apply rbind_ok in E as (builders & Ebu & E). apply rbind_ok in E as (first & Ef & E). apply rbind_ok in E as (second & Es & E). apply Ok_inj in E.
  subst batch. intros i Hi Hc. unfold batch_iter in Hi. apply in_flat_map in Hi as (d & Hd & Hi). cbn [set_priority ba_main ba_blanks] in Hd |- *.
  apply in_app_or in Hd as [Hd|[<-|[]]]; [|exact Hi]. exfalso.
  apply in_map_iff in Hd as (d0 & <- & Hd). unfold blanks_for in Ebl. destruct (blanks_for_ok _ _ _ _ _ _ _ _ _ _ _ _ Ebl) as (ds & -> & F). cbn [app] in Hd.
  assert (Hd0 : exists q, In q (or_contracts od spm) /\ blank_for H D P s ch od method layer iface q = Ok d0).
  { clear -F Hd. induction F as [|q d ps ds Ed F IH]; [destruct Hd|]. destruct Hd as [->|Hd]; [exists q; split; [left; reflexivity|exact Ed]|].
    destruct (IH Hd) as (q' & Hq & E). exists q'. split; [right; exact Hq|exact E]. }
  destruct Hd0 as (q & Hq & Ed). destruct (blank_for_clean _ _ _ _ _ _ _ _ _ _ _ Ed) as [_ Hp].
  destruct (plain_nonce priority d0 (fst q) Hp i Hi) as [Hi' _].
  destruct Ho as (_ & _ & Hoc & _). apply (Permutation_in _ (Hoc spm)) in Hq.
  assert (Hk : In (fst q) (mkeys spm)) by (apply in_map, Hq).
  apply (proj2 (spent_state_ok _ _ _ _ Esp)) in Hk. destruct Hk as [_ Ne]. congruence.
Qed.

(** Spending all inputs, and only those: what is spent is found. *)
Lemma spends_found {OG : OrdKey GlobalOut} H K calls D P wrap ch od inv prev method vout priority now batch cid l f :
  (forall x, In x calls -> stock_call_ok H x) -> stock_all_succeed H K sk_empty calls ->
  let s := stock_after H K sk_empty calls in
  orders_ok od -> InvoiceModel.contract inv = Some cid -> spent s cid prev l -> spends_all cid l (di_iter (ba_main batch)) ->
  compose H D P wrap s ch od inv prev method vout priority now = Ok batch ->
  made_of H batch f -> commits_to H f cid (di_iter (ba_main batch)) -> one_seal_each s cid prev ->
  (exists id t, moved f cid id t) /\ spends_from s f cid prev.
Proof.
  intros Ok Su s Ho Ec (_ & Hl) (_ & _ & Sp) E M Co Os. split.
  - destruct (Co (di_first (ba_main batch)) (or_introl eq_refl)) as (b & Hb & Ht). eexists. eexists. exists b. split; eassumption.
  - intros id t i (b & Hb & Ht) Hi. left. left.
    assert (Hm : In (cid, t) (moves f)).
    { unfold moves. apply in_flat_map. exists (cid, b). split; [exact Hb|]. apply in_map_iff. exists (id, t). auto. }
    destruct (mo_moves _ _ _ M _ _ Hm) as (Hc & j & Hj & <-).
    pose proof (compose_main _ _ _ _ _ _ _ _ _ _ _ _ _ _ _ Ho E Ec j Hj Hc) as Hd.
    destruct (Sp j Hd) as (_ & _ & _ & Pi & _). apply (Permutation_in _ Pi) in Hi. apply in_map_iff in Hi as (x & <- & Hx).
    unfold with_method in Hx. apply filter_In in Hx as [Hx _]. apply Hl in Hx as ((c & k & w & Es & Ha) & Hp).
    pose proof (proj1 (C25_allocations_found OG H K calls cid c k _ Ok Su Es Ha)) as Hf. cbn [oa_seal oa_opout] in Hf.
    apply in_map_iff in Hp as (o & Eo & Hp). exists (in_seal x), o. split; [exact Hp|]. split; [symmetry; exact Eo|]. split; [exact Hf|].
    exact (Os o _ _ Hp Hf (eq_sym Eo)).
Qed.

(** A payment of an amount ... *)
Theorem C90_composed : forall (OG : OrdKey GlobalOut) H K calls D P wrap ch od inv prev method vout priority now batch cid tt a amt l f,
  (forall x, In x calls -> stock_call_ok H x) -> stock_all_succeed H K sk_empty calls ->
  let s := stock_after H K sk_empty calls in
  paying D wrap s ch od inv prev method vout cid tt a amt l ->
  compose H D P wrap s ch od inv prev method vout priority now = Ok batch ->
  made_of H batch f -> commits_to H f cid (di_iter (ba_main batch)) -> one_seal_each s cid prev ->
  (exists id t, moved f cid id t) /\ spends_from s f cid prev.
Proof.
  intros OG H K calls D P wrap ch od inv prev method vout priority now batch cid tt a amt l f Ok Su s Pa E M Co Os.
  destruct (C38_amount_partial H D P wrap s ch od inv prev method vout priority now batch cid tt a amt l Pa E) as (Sp & _).
  destruct Pa as (Ho & _ & _ & As & Hl & _). assert (Ec : InvoiceModel.contract inv = Some cid) by (destruct As as (? & ? & ? & ? & ? & ? & Ec & _); exact Ec).
  exact (spends_found H K calls D P wrap ch od inv prev method vout priority now batch cid l f Ok Su Ho Ec Hl Sp E M Co Os).
Qed.

(** ... and of an allocation. *)
Theorem C90_composed_data : forall (OG : OrdKey GlobalOut) H K calls D P wrap ch od inv prev method vout priority now batch cid tt a al l f,
  (forall x, In x calls -> stock_call_ok H x) -> stock_all_succeed H K sk_empty calls ->
  let s := stock_after H K sk_empty calls in
  paying_data D wrap s ch od inv prev cid tt a al l ->
  compose H D P wrap s ch od inv prev method vout priority now = Ok batch ->
  made_of H batch f -> commits_to H f cid (di_iter (ba_main batch)) -> one_seal_each s cid prev ->
  (exists id t, moved f cid id t) /\ spends_from s f cid prev.
Proof.
  intros OG H K calls D P wrap ch od inv prev method vout priority now batch cid tt a al l f Ok Su s (Ho & P2 & P3 & As & Hl & P6 & P7) E M Co Os.
  destruct (C38_data_partial H D P wrap s ch od inv prev method vout priority now batch cid tt a l al Ho P2 P3 As Hl P6 P7 E) as (Sp & _).
  assert (Ec : InvoiceModel.contract inv = Some cid) by (destruct As as (? & ? & ? & ? & ? & ? & Ec & _); exact Ec).
  exact (spends_found H K calls D P wrap ch od inv prev method vout priority now batch cid l f Ok Su Ho Ec Hl Sp E M Co Os).
Qed.

Lemma hp_one_seal s cid prev :
  match mget cid (mi_contracts (sk_index s)) with
  | Some ci => forallb (fun p => forallb (fun p' => keqb (fst p) (fst p') || negb (os_vout (fst p) =? os_vout (fst p'))) (ci_outs ci)) (ci_outs ci)
  | None => false end = true -> one_seal_each s cid prev.
Proof.
  intros Ef o out oo Ho Hs Eo. right. intros out' oo' Hs' Eo'. destruct Hs as (ci & set & Ec & Es & _). destruct Hs' as (ci' & set' & Ec' & Es' & _).
  rewrite Ec in Ec'. injection Ec' as <-. rewrite Ec in Ef. apply mget_In in Es, Es'.
  rewrite forallb_forall in Ef. specialize (Ef _ Es'). rewrite forallb_forall in Ef. specialize (Ef _ Es). cbn [fst] in Ef.
  assert (Ev : os_vout out' = os_vout out).
  { rewrite <- Eo in Eo'. apply (f_equal xo_vout) in Eo'. exact Eo'. }
  rewrite Ev, N.eqb_refl, Bool.orb_false_r in Ef. apply keqb_true, Ef.
Qed.

(** The payment of C68: the invoiced contract is moved by two transitions, one for each method. *)
Example C90_composed_nonvacuous : forall OG : OrdKey GlobalOut, exists batch,
  let f := py_fascia batch in
  let s := py_payer in
  s = stock_after bit_hashes cn_merkle sk_empty fd_calls /\
  (forall x, In x fd_calls -> stock_call_ok bit_hashes x) /\ stock_all_succeed bit_hashes cn_merkle sk_empty fd_calls /\
  paying cx_defs false s cx_apart cx_orders py_invoice cx_prev TapretFirst None fd_first 20 10 40 py_l /\
  compose bit_hashes cx_defs bx_pedersen false s cx_apart cx_orders py_invoice cx_prev TapretFirst None 7 50%Z = Ok batch /\
  made_of bit_hashes batch f /\ commits_to bit_hashes f fd_first (di_iter (ba_main batch)) /\ one_seal_each s fd_first cx_prev /\
  len (di_iter (ba_main batch)) = 2 /\ len (moves f) = 4.
Proof.
  intros OG. destruct (C88_composed_nonvacuous OG) as (batch & _ & _ & _ & _ & E & _ & M & _ & _ & _ & _ & Lm). exists batch. cbv zeta. split; [reflexivity|].
  split.
  { intros x [<-|[<-|[]]]; apply cons_okb_ok; vm_compute; reflexivity. }
  split; [split; [vm_compute; reflexivity|split; [vm_compute; reflexivity|exact Logic.I]]|].
  split; [exact py_paying|]. split; [exact E|]. split; [exact M|].
  assert (Lb : match compose bit_hashes cx_defs bx_pedersen false py_payer cx_apart cx_orders py_invoice cx_prev TapretFirst None 7 50%Z with
    | Ok batch => (len (di_iter (ba_main batch)) =? 2) | _ => false end = true) by (vm_compute; reflexivity).
  rewrite E in Lb. apply N.eqb_eq in Lb.
  split; [|split; [|split; [exact Lb|exact Lm]]].
  - assert (Em : match compose bit_hashes cx_defs bx_pedersen false py_payer cx_apart cx_orders py_invoice cx_prev TapretFirst None 7 50%Z with
      | Ok batch => mget fd_first (fa_bundles (py_fascia batch)) = Some (py_bundles (ba_main batch)) | _ => False end) by (vm_compute; reflexivity).
    rewrite E in Em. exact (py_commits _ _ _ Em).
  - apply hp_one_seal. vm_compute. reflexivity.
Qed.

(** The payment of an allocation of C68 *)
Example C90_composed_data_nonvacuous : forall OG : OrdKey GlobalOut, exists batch,
  let f := pd_fascia batch in
  let s := pd_payer in
  s = stock_after bit_hashes cn_merkle sk_empty pd_calls /\
  (forall x, In x pd_calls -> stock_call_ok bit_hashes x) /\ stock_all_succeed bit_hashes cn_merkle sk_empty pd_calls /\
  paying_data cx_defs false s cx_apart cx_orders pd_invoice cx_prev pd_id 20 12 pd_alloc pd_l /\
  compose bit_hashes cx_defs bx_pedersen false s cx_apart cx_orders pd_invoice cx_prev TapretFirst None 7 50%Z = Ok batch /\
  made_of bit_hashes batch f /\ commits_to bit_hashes f pd_id (di_iter (ba_main batch)) /\ one_seal_each s pd_id cx_prev.
Proof.
  intros OG.
  destruct (compose bit_hashes cx_defs bx_pedersen false pd_payer cx_apart cx_orders pd_invoice cx_prev TapretFirst None 7 50%Z) as [batch| |] eqn:E;
    [|exfalso; vm_compute in E; discriminate E|exfalso; vm_compute in E; discriminate E].
  pose proof E as E0. vm_compute in E. injection E as E. exists batch. cbv zeta.
  split; [reflexivity|]. split. { intros x [<-|[<-|[]]]; apply cons_okb_ok; vm_compute; reflexivity. }
  split; [split; [vm_compute; reflexivity|split; [vm_compute; reflexivity|exact Logic.I]]|].
  split; [exact pd_paying|]. split; [exact E0|]. clear E0. split; [|split].
  - constructor.
    + intros cid b Hb.
      assert (B : forallb (fun p => negb (match b_known (snd p) with [] => true | _ => false end) && known_subset (snd p)) (fascia_bundles (pd_fascia batch)) = true) by (subst batch; vm_compute; reflexivity).
      rewrite forallb_forall in B. specialize (B _ Hb). cbn [snd] in B. apply andb_prop in B as [B1 B2]. split; [destruct (b_known b); [discriminate B1|discriminate]|apply known_subset_ok, B2].
    + assert (Em : moves (pd_fascia batch) = map (fun i => (op_contract (ti_transition i), ti_transition i)) (di_iter (ba_main batch) ++ flat_map di_iter (ba_blanks batch)) \/
        moves (pd_fascia batch) = map (fun i => (op_contract (ti_transition i), ti_transition i)) (flat_map di_iter (ba_blanks batch) ++ di_iter (ba_main batch)))
        by (subst batch; first [left; vm_compute; reflexivity|right; vm_compute; reflexivity]).
      intros cid o Hm.
      assert (Hi : exists i, (cid, o) = (op_contract (ti_transition i), ti_transition i) /\ In i (batch_iter batch)).
      { unfold batch_iter. destruct Em as [Em|Em]; rewrite Em in Hm; apply in_map_iff in Hm as (i & Ei & Hi); exists i; (split; [symmetry; exact Ei|]);
          rewrite flat_map_app; cbn [flat_map]; rewrite app_nil_r; apply in_or_app; apply in_app_or in Hi; tauto. }
      destruct Hi as (i & Ei & Hi). injection Ei as -> ->. split; [reflexivity|]. exists i. auto.
    + apply nodupb_ok; subst batch; vm_compute; reflexivity.
    + apply nodupb_ok; subst batch; vm_compute; reflexivity.
  - apply pd_commits. subst batch. vm_compute. reflexivity.
  - apply hp_one_seal. vm_compute. reflexivity.
Qed.

(** *** The payment of C68 pays its secret seal in two bundles, once in each. *)
Definition hp_pays (H : Hashes) (x : N) (a : Assign) : bool :=
  match a with
  | Confidential y _ | ConfidentialSeal y _ => x =? y
  | ConfidentialState y _ | Revealed y _ => x =? h_seal H y
  end.
Definition hp_slots (H : Hashes) (x : N) (t : Operation) : list (N * nat) :=
  flat_map (fun p => filter_map (fun no => match nth_error (ta_list (snd p)) no with Some a => if hp_pays H x a then Some (fst p, no) else None | None => None end)
    (seq 0 (length (ta_list (snd p))))) (op_assigns t).
Lemma filter_map_In' {A B} (g : A -> option B) l x y : In x l -> g x = Some y -> In y (filter_map g l).
Proof. induction l as [|z l IH]; intros Hx E; [destruct Hx|]. cbn. destruct Hx as [->|Hx]; [rewrite E; left; reflexivity|]. destruct (g z); [right|]; apply IH; assumption. Qed.
Lemma hp_slots_all H x t ty no : assigned_to H t ty no x -> In (ty, no) (hp_slots H x t).
Proof.
  intros (a & (ta & Hta & Hn) & Ha). unfold hp_slots. apply in_flat_map. exists (ty, ta). split; [exact Hta|]. cbn [fst snd].
  apply (filter_map_In' _ _ no).
  - apply in_seq. split; [lia|]. cbn. apply nth_error_Some. rewrite Hn. discriminate.
  - rewrite Hn. assert (Hp : hp_pays H x a = true) by (destruct a; cbn; subst x; apply N.eqb_refl). rewrite Hp. reflexivity.
Qed.
Definition hp_all (H : Hashes) (x : N) (b : Bundle) : list (N * (N * nat)) := flat_map (fun p => map (pair (fst p)) (hp_slots H x (snd p))) (b_known b).
Lemma hp_once H f x cid :
  forallb (fun p => match hp_all H x (snd p) with [] => true | [_] => fst p =? cid | _ => false end) (fascia_bundles f) = true ->
  len (fascia_bundles f) <= U16MAX -> pays_once H f x cid.
Proof.
  intros Ef Hl. rewrite forallb_forall in Ef.
  assert (Ha : forall b id t ty no, In (id, t) (b_known b) -> assigned_to H t ty no x -> In (id, (ty, no)) (hp_all H x b)).
  { intros b id t ty no Ht A. apply in_flat_map. exists (id, t). split; [exact Ht|]. apply (in_map (pair id)), hp_slots_all, A. }
  split; [|split; [|exact Hl]].
  - intros c id t ty no (b & Hb & Ht) A. specialize (Ef _ Hb). cbn [fst snd] in Ef. pose proof (Ha b id t ty no Ht A) as Hin.
    destruct (hp_all H x b) as [|q [|q' l]]; [destruct Hin|apply N.eqb_eq, Ef|discriminate Ef].
  - intros b id t ty no id' t' ty' no' Hb Ht Ht' A A'. specialize (Ef _ Hb). cbn [fst snd] in Ef.
    pose proof (Ha b id t ty no Ht A) as H1. pose proof (Ha b id' t' ty' no' Ht' A') as H2.
    destruct (hp_all H x b) as [|q [|q' l]]; [destruct H1| |discriminate Ef]. destruct H1 as [->|[]], H2 as [H2|[]]. injection H2 as -> -> ->. auto.
Qed.
Example C90_pays_once_nonvacuous : forall OG : OrdKey GlobalOut, exists batch b b',
  compose bit_hashes cx_defs bx_pedersen false py_payer cx_apart cx_orders py_invoice cx_prev TapretFirst None 7 50%Z = Ok batch /\
  pays_once bit_hashes (py_fascia batch) cn_secret fd_first /\
  fascia_bundles (py_fascia batch) <> [] /\ di_iter (py_bundles (ba_main batch)) = [b; b'] /\
  len (hp_all bit_hashes cn_secret b) = 1 /\ len (hp_all bit_hashes cn_secret b') = 1.
Proof.
  intros OG.
  destruct (compose bit_hashes cx_defs bx_pedersen false py_payer cx_apart cx_orders py_invoice cx_prev TapretFirst None 7 50%Z) as [batch| |] eqn:E;
    [|exfalso; vm_compute in E; discriminate E|exfalso; vm_compute in E; discriminate E].
  vm_compute in E. injection E as E. exists batch.
  assert (Ed : exists b b', di_iter (py_bundles (ba_main batch)) = [b; b'] /\ len (hp_all bit_hashes cn_secret b) = 1 /\ len (hp_all bit_hashes cn_secret b') = 1).
  { subst batch. eexists. eexists. split; [reflexivity|]. split; vm_compute; reflexivity. }
  destruct Ed as (b & b' & Ed). exists b, b'. split; [reflexivity|]. split; [|split; [|exact Ed]].
  - apply hp_once; subst batch; vm_compute; [reflexivity|discriminate].
  - intros Ez. assert (El : (length (fascia_bundles (py_fascia batch)) =? 0)%nat = false) by (subst batch; vm_compute; reflexivity). rewrite Ez in El. discriminate El.
Qed.

Print Assumptions C90_composed.
Print Assumptions C90_composed_data.
Print Assumptions C90_composed_nonvacuous.
Print Assumptions C90_composed_data_nonvacuous.
Print Assumptions C90_pays_once_nonvacuous.
