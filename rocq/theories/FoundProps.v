(** * The index and the state agree: C38 for stocks made by successful calls *)
From Coq Require Import Permutation Ascii String.
From Verif Require Import Base StM Core ContainerModel ContainerSpec PIndexModel PIndexSpec PIndexProofs.
From Verif Require Import StateModel StateSpec StateProofs StashModel StashSpec StashProofs StashAgain.
From Verif Require Import ContainerProofs StockModel StockSpec StockProofs StockAgain InvoiceModel IfaceModel BuilderModel BuilderSpec.
From Verif Require Import ComposeModel ComposeSpec ComposeBlank FasciaProps.
From Verif Require Import Str Ser StashProps StockProps ConsignProps BuilderProps ComposeProps.
Local Open Scope list_scope. Local Open Scope N_scope.

(** ** Specification *)

Section Found.
Context {OG : OrdKey GlobalOut}.

(** All calls succeed, one after another. *)
Fixpoint stock_all_succeed (H : Hashes) (K : Merkle) (s : Stock) (l : list StockCall) : Prop :=
  match l with
  | [] => True
  | c :: l' => snd (stock_body H K c s) = Ok tt /\ stock_all_succeed H K (fst (stock_body H K c s)) l'
  end.

(** ** Proofs *)

Lemma mfor_each {S X A} (f : A -> M S X unit) l s s' x : mfor f l s = (s', Ok tt) -> In x l ->
  exists t t', f x t = (t', Ok tt).
Proof.
  revert s. induction l as [|y l IH]; intros s E Hin; [destruct Hin|]. cbn [mfor] in E. unfold bind in E.
  destruct (f y s) as [s1 [[]|e|]] eqn:E1; try discriminate. destruct Hin as [<-|Hin]; eauto.
Qed.

Lemma bind_ok {S X A B} (m : M S X A) (k : A -> M S X B) s s' b : bind m k s = (s', Ok b) ->
  exists t a, m s = (t, Ok a) /\ k a t = (s', Ok b).
Proof. unfold bind. destruct (m s) as [t [a|e|]]; try discriminate. eauto. Qed.

(** An indexed operation: the seals it reveals have outputs. *)
Lemma indexed_outputs cid opid w o s s' : index_op_assigns cid opid w o s = (s', Ok tt) ->
  forall ty no a x, PIndexSpec.assigned o ty no a -> revealed_seal a = Some x -> assign_output w x <> None.
Proof.
  intros E ty no a x (ta & Hta & Hno) Hx. unfold index_op_assigns in E.
  destruct (mfor_each _ _ _ _ _ E Hta) as (t & t' & E1). cbn [fst snd] in E1. unfold index_assignments in E1.
  apply bind_ok in E1 as (t1 & s0 & _ & E1). apply bind_ok in E1 as (t2 & u & _ & E1). apply bind_ok in E1 as (t3 & [] & E1 & _).
  apply enumerate_In in Hno. destruct (mfor_each _ _ _ _ _ E1 Hno) as (t4 & t5 & E2). cbn [fst snd] in E2.
  destruct a; cbn [revealed_seal] in Hx; try discriminate; apply Some_inj in Hx; subst x;
    destruct (assign_output w _); discriminate.
Qed.

Definition linked (s : Stock) : Prop :=
  wf (sk_index s) /\ swf (sk_state s) /\
  forall cid k a, sstates (sk_state s) (SFOut cid k a) -> states (sk_index s) (FOut cid (oa_seal a) (oa_opout a)).

Lemma reveals_announced H o ow k a cid opid w : reveals H o ow k a -> op_id H o = opid ->
  (forall ty no b x, PIndexSpec.assigned o ty no b -> revealed_seal b = Some x ->
     seal_output (op_witness ow) x (oa_seal a) -> seal_output w x (oa_seal a)) ->
  op_announces cid opid w o (FOut cid (oa_seal a) (oa_opout a)).
Proof.
  intros (ty & ta & no & seal & st & Hta & _ & Hno & So & Eo & _) Ei Hw.
  exists ty, no, (Revealed seal st). split; [exists ta; auto|]. cbv zeta. left. exists seal, (oa_seal a).
  split; [reflexivity|]. split; [|rewrite Eo, Ei; reflexivity].
  apply (Hw ty no (Revealed seal st) seal); [exists ta; auto|reflexivity|exact So].
Qed.

Lemma linked_accept H K c r s s' : stock_call_ok H (SkAccept c r) -> accept_body H K c r s = (s', Ok tt) ->
  linked s -> linked s'.
Proof.
  intros Ok E (W & Sw & L). apply accept_ok in E as (c' & Er & Es & Ei & _).
  apply (resolve_ok _ _ _ _ _ Ok) in Er. destruct Er as (Co & _). clear Ok c. rename c' into c.
  destruct (scall_adds H (StConsignment c r) (sk_state s) Sw) as (Sw' & Sn & _). rewrite Es in Sw', Sn. cbn [fst] in Sw', Sn.
  pose proof (adds_call H (IxConsignment c) _ _ _ Ei W) as (W' & _ & Kp & Cp).
  split; [exact W'|]. split; [exact Sw'|]. intros cid k a Ha. destruct (Sn _ Ha) as [Ho|Hn].
  { apply Kp; [reflexivity|]. apply L in Ho. exact Ho. }
  apply (Cp tt eq_refl). right. left. destruct Hn as (ow & o & (-> & Hi) & Hr). cbn [announces].
  destruct Hi as [(-> & ->)|[(wb & Hwb & Ho & ->)|(w & Ho & _ & ->)]].
  - right. left. eapply reveals_announced; [exact Hr|reflexivity|auto].
  - right. right. right. unfold wb_known_transitions in Ho. apply in_flat_map in Ho as (b & Hb & Ho).
    exists wb, b. split; [exact Hwb|]. split; [exact Hb|]. right. right.
    assert (Ok : bundle_ok H b).
    { rewrite anchored_bundles_map in Hb. apply in_map_iff in Hb as (p & <- & Hp). exact (co_bundles _ _ Co wb p Hwb Hp). }
    unfold mvals in Ho. apply in_map_iff in Ho as ([id t] & <- & Hin). cbn [snd].
    exists id, t. split; [exact Hin|]. right. eapply reveals_announced; [exact Hr| |auto].
    destruct Ok as ((Hid & Hs & _) & _). apply In_mget in Hin; [|exact Hs]. exact (Hid _ _ Hin).
  - right. right. left. exists o. split; [exact Ho|]. eapply reveals_announced; [exact Hr|reflexivity|].
    cbn [op_witness]. intros ty no b x Hb Hx So.
    cbn [index_call] in Ei. unfold pindex_consignment in Ei. apply bind_ok in Ei as (t1 & u1 & _ & Ei).
    apply bind_ok in Ei as (t2 & u2 & _ & Ei). apply bind_ok in Ei as (t3 & [] & Ee & _).
    destruct (mfor_each _ _ _ _ _ Ee Ho) as (t4 & t5 & E5). unfold pindex_extension in E5.
    pose proof (indexed_outputs _ _ _ _ _ _ E5 _ _ _ _ Hb Hx) as Hn.
    destruct (assign_output None x) as [out|] eqn:Eo; [|congruence]. apply assign_output_spec in Eo.
    destruct So as (A1 & A2 & A3 & A4), Eo as (B1 & B2 & B3 & B4). repeat (split; [assumption|]).
    destruct (s_txid x); [exact A4|contradiction].
Qed.

Lemma linked_fascia H (K : Merkle) f r s s' : stock_call_ok H (SkFascia f r) -> fascia_body H f r s = (s', Ok tt) ->
  linked s -> linked s'.
Proof.
  intros Ok E (W & Sw & L). apply (fascia_ok H K) in E. cbv zeta in E. destruct E as (_ & (Ai & Ei) & (As & Es) & _).
  destruct (scalls_adds H (map (st_of (fascia_witness_id f) r) (fascia_bundles f)) _ Sw) as (Sw' & Sn & _).
  split; [rewrite Ei; apply calls_wf, W|]. split; [rewrite Es; exact Sw'|]. intros cid k a Ha. rewrite Es in Ha. rewrite Ei.
  apply calls_ok; [exact W|exact Ai|]. destruct (Sn _ Ha) as [Ho|(c & Hc & Hn)]; [left; apply L in Ho; exact Ho|]. right.
  apply in_map_iff in Hc as (p & <- & Hp). exists (ix_of (fascia_witness_id f) p). split; [apply in_map, Hp|].
  destruct Hn as (ow & o & (-> & Ho & ->) & Hr). cbn [announces ix_of]. right. right.
  unfold mvals in Ho. apply in_map_iff in Ho as ([id t] & <- & Hin). cbn [snd]. exists id, t. split; [exact Hin|]. right.
  eapply reveals_announced; [exact Hr| |auto]. destruct (Ok p Hp) as (((Hid & Hs & _) & _) & _).
  apply In_mget in Hin; [|exact Hs]. exact (Hid _ _ Hin).
Qed.

Lemma linked_call H K c s : stock_call_ok H c -> snd (stock_body H K c s) = Ok tt -> linked s -> linked (fst (stock_body H K c s)).
Proof.
  intros Ok E L. destruct (stock_body H K c s) as [s' e] eqn:Eb. cbn [fst snd] in *. subst e.
  destruct c as [c r|f r|k|x|r after|]; cbn [stock_body] in Eb.
  - eapply linked_accept; eassumption.
  - eapply (linked_fascia H K); eassumption.
  - unfold on_stash in Eb. destruct (consume_kit k (sk_stash s)) as [h e]. injection Eb as <- _. exact L.
  - unfold bind, on_stash, ret in Eb. destruct (store_secret_seal x (sk_stash s)) as [h [b|e|]]; cbn [rmap_err] in Eb; try discriminate.
    injection Eb as <-. exact L.
  - unfold bind, on_state, ret in Eb. destruct (update_witnesses r after (sk_state s)) as [t e] eqn:Eu.
    assert (Es' : s' = {| sk_stash := sk_stash s; sk_state := t; sk_index := sk_index s |})
      by (destruct e; cbn [rmap_err] in Eb; congruence).
    subst s'. destruct L as (W & Sw & L). destruct (scall_adds H (StUpdate r after) (sk_state s) Sw) as (Sw' & Sn & _).
    assert (Et : fst (state_call H (StUpdate r after) (sk_state s)) = t).
    { cbn [state_call]. unfold bind, ret. rewrite Eu. destruct e; reflexivity. }
    rewrite Et in Sw', Sn. split; [exact W|]. split; [exact Sw'|]. cbn [sk_state sk_index]. intros cid k a Ha.
    destruct (Sn _ Ha) as [Ho|(ow & o & [] & _)]. exact (L _ _ _ Ho).
  - unfold ret in Eb. injection Eb as <-. exact L.
Qed.

Lemma linked_empty : linked sk_empty.
Proof. split; [apply wf_empty|]. split; [apply swf_empty|]. intros cid k a (cs & E & _). discriminate E. Qed.

Lemma linked_after H K l s : (forall c, In c l -> stock_call_ok H c) -> stock_all_succeed H K s l -> linked s ->
  linked (stock_after H K s l).
Proof.
  revert s. induction l as [|c l IH]; intros s Ok Su L; [exact L|]. cbn [stock_after fold_left stock_all_succeed] in *.
  destruct Su as (S1 & S2). apply IH; [intros x Hx; apply Ok; right; exact Hx|exact S2|].
  apply linked_call; [apply Ok; left; reflexivity|exact S1|exact L].
Qed.
End Found.

(** ** Theorems *)

(** After successful calls the index finds every allocation the state reports, under the
    same contract and output ... *)
Theorem C25_allocations_found : forall (OG : OrdKey GlobalOut) H K calls cid c k a,
  (forall x, In x calls -> stock_call_ok H x) -> stock_all_succeed H K sk_empty calls ->
  let s := stock_after H K sk_empty calls in
  contract_state (sk_state s) cid = Ok c -> In a (outs_all k c) ->
  states (sk_index s) (FOut cid (oa_seal a) (oa_opout a)) /\
  forall outs, In (os_outpoint (oa_seal a)) outs -> In cid (contracts_assigning (sk_index s) (sfrom outs)).
Proof.
  intros OG H K calls cid c k a Ok Su s Ec Ha.
  destruct (linked_after H K calls sk_empty Ok Su linked_empty) as (W & Sw & L). fold s in W, Sw, L.
  rewrite (outs_all_spec _ _ _ _ _ Sw Ec) in Ha. destruct Ha as (Hs & _). pose proof (L _ _ _ Hs) as Hf.
  split; [exact Hf|]. intros outs Ho. apply contracts_assigning_spec; [exact W|].
  exists (oa_seal a), (oa_opout a). split; [apply sfrom_In, Ho|exact Hf].
Qed.

(** ... so a payment moves all state of other contracts on its outputs: each contract with
    state there has its blank transitions in the batch. *)
Theorem C38_others_partial : forall (OG : OrdKey GlobalOut) H K calls D P wrap ch od inv prev method vout priority now batch cid id l,
  (forall x, In x calls -> stock_call_ok H x) -> stock_all_succeed H K sk_empty calls ->
  let s := stock_after H K sk_empty calls in
  orders_ok od -> schemata_small D -> InvoiceModel.contract inv = Some cid ->
  compose H D P wrap s ch od inv prev method vout priority now = Ok batch ->
  id <> cid -> spent s id prev l -> l <> [] -> separate ch use_blank id (velocity_for D s id) l ->
  exists d, In d (ba_blanks batch) /\ spends_all id l (di_iter d) /\
    forall t, In t (di_iter d) -> op_ty (ti_transition t) = BLANK /\
      exists R, Forall2 (moved ch method (layer1 (chain_network (beneficiary inv))) use_blank id (velocity_for D s id))
                  (with_method (ti_method t) l) R /\
        Permutation (shown (ti_transition t)) R.
Proof.
  intros OG H K calls D P wrap ch od inv prev method vout priority now batch cid id l Ok Su s Ho Hd Hc E Ne Hs Hl Hsep.
  destruct (compose_blanks _ _ _ _ _ _ _ _ _ _ _ _ _ _ _ Ho Hd Hc E) as (ids & _ & Hids & F).
  assert (Hin : In id ids).
  { apply Hids. split; [|exact Ne]. destruct l as [|x l]; [congruence|].
    destruct (proj1 (proj2 Hs x) (or_introl eq_refl)) as ((c & k & w & Ec & Ha) & Hp).
    exact (proj2 (C25_allocations_found OG H K calls id c k _ Ok Su Ec Ha) _ Hp). }
  clear -F Hin Hs Hsep. revert F Hin. generalize (ba_blanks batch). induction ids as [|i ids IH]; intros bs F Hin; [destruct Hin|].
  inversion F as [|? d ? bs' Hd F']; subst. destruct Hin as [->|Hin].
  - exists d. split; [left; reflexivity|]. destruct (Hd l Hs Hsep) as (_ & H1 & H2). auto.
  - destruct (IH _ F' Hin) as (d' & Hd' & Hx). exists d'. split; [right; exact Hd'|exact Hx].
Qed.

(** ** Example: two contracts imported, forty paid of the first *)
Definition fd_seal (m : CloseMethod) (v : N) : Seal :=
  {| s_layer := Bitcoin; s_method := m; s_txid := Some 9; s_vout := v; s_blinding := 0 |}.
Definition fd_gen (head : N) (l : list (N * TypedAssigns)) : Operation :=
  {| op_kind := OpGenesis; op_head := head; op_contract := head; op_ty := 50; op_nonce := 0; op_meta := []; op_globals := []; op_inputs := [];
     op_redeemed := []; op_assigns := l; op_valencies := [] |}.
(** Two amounts, with both methods *)
Definition fd_one : Operation := fd_gen 6
  [(10, {| ta_kind := KFungible; ta_list := [Revealed (fd_seal TapretFirst 1) (RAmount 30 11 77); Revealed (fd_seal OpretFirst 2) (RAmount 25 12 77)] |})].
(** An amount and an attachment on the same outputs *)
Definition fd_two : Operation := fd_gen 7
  [(10, {| ta_kind := KFungible; ta_list := [Revealed (fd_seal TapretFirst 1) (RAmount 8 11 77)] |});
   (13, {| ta_kind := KAttachment; ta_list := [Revealed (fd_seal OpretFirst 2) (RAttach 9 9)] |})].
Definition fd_cons (g : Operation) : Consignment :=
  {| c_transfer := false; c_terminals := []; c_genesis := g; c_extensions := [];
     c_schema := {| sch_id := 50; sch_globals := []; sch_libs := []; sch_types := [] |};
     c_ifaces := [(ex_iface 1 1, ex_impl 5 50 1)]; c_supplements := []; c_bundles := []; c_types := []; c_scripts := [];
     c_attachments := []; c_signatures := [] |}.
Definition fd_calls : list StockCall := [SkAccept (fd_cons fd_one) yes_witness; SkAccept (fd_cons fd_two) yes_witness].
Definition fd_first : N := op_id bit_hashes fd_one.
Definition fd_second : N := op_id bit_hashes fd_two.
Definition fd_invoice : RgbInvoice :=
  {| transports := []; InvoiceModel.contract := Some fd_first; InvoiceModel.iface := Some (lit "A"%string); InvoiceModel.operation := None;
     InvoiceModel.assignment := None; beneficiary := XBitcoinMainnet (BlindedSeal 33); owned_state := ISAmount 40; expiry := None; unknown_query := [] |}.
Definition fd_l : list Inp :=
  [(cx_seal TapretFirst 1, ({| oo_op := fd_second; oo_ty := 10; oo_no := 0 |}, RAmount 8 11 77));
   (cx_seal OpretFirst 2, ({| oo_op := fd_second; oo_ty := 13; oo_no := 0 |}, RAttach 9 9))].

Example C38_others_nonvacuous : forall OG : OrdKey GlobalOut, let s := stock_after bit_hashes cn_merkle sk_empty fd_calls in
  exists batch blank,
  (forall x, In x fd_calls -> stock_call_ok bit_hashes x) /\ stock_all_succeed bit_hashes cn_merkle sk_empty fd_calls /\
  orders_ok cx_orders /\ schemata_small cx_defs /\
  compose bit_hashes cx_defs bx_pedersen false s cx_apart cx_orders fd_invoice cx_prev TapretFirst None 7 50%Z = Ok batch /\
  fd_second <> fd_first /\ spent s fd_second cx_prev fd_l /\ separate cx_apart use_blank fd_second (velocity_for cx_defs s fd_second) fd_l /\
  ba_blanks batch = [blank] /\ len (di_iter blank) = 2.
Proof.
  intros OG s.
  destruct (compose bit_hashes cx_defs bx_pedersen false s cx_apart cx_orders fd_invoice cx_prev TapretFirst None 7 50%Z) as [batch| |] eqn:E;
    [|exfalso; vm_compute in E; discriminate E|exfalso; vm_compute in E; discriminate E].
  vm_compute in E. injection E as <-. eexists _, _. split.
  { intros x [<-|[<-|[]]]; apply cons_okb_ok; vm_compute; reflexivity. }
  split; [split; [vm_compute; reflexivity|split; [vm_compute; reflexivity|exact I]]|].
  split; [exact cx_orders_ok|]. split; [exact cx_small|]. split; [reflexivity|]. split; [vm_compute; discriminate|]. split.
  { eapply spent_of; [vm_compute; reflexivity|vm_compute; reflexivity|]. repeat constructor; cbn; intuition discriminate. }
  split; [|split; reflexivity].
  intros x y Hx Hy Et _ _ _. vm_compute in Hx, Hy. repeat destruct Hx as [<-|Hx]; try destruct Hx; repeat destruct Hy as [<-|Hy]; try destruct Hy; try reflexivity; vm_compute in Et; discriminate.
Qed.

(** ... and the contract's amount is in its state and found by its output. *)
Example C25_allocations_nonvacuous : forall OG : OrdKey GlobalOut, let s := stock_after bit_hashes cn_merkle sk_empty fd_calls in
  exists c a, contract_state (sk_state s) fd_second = Ok c /\ In a (outs_all KFungible c) /\ oa_state a = RAmount 8 11 77 /\
  contracts_assigning (sk_index s) (sfrom [os_outpoint (oa_seal a)]) <> [].
Proof.
  intros OG s. destruct (contract_state (sk_state s) fd_second) as [c| |] eqn:E;
    [|exfalso; vm_compute in E; discriminate E|exfalso; vm_compute in E; discriminate E].
  vm_compute in E. injection E as <-. eexists _, _. split; [reflexivity|]. split; [left; reflexivity|]. split; [reflexivity|].
  vm_compute. discriminate.
Qed.

Print Assumptions C25_allocations_found.
Print Assumptions C38_others_partial.
Print Assumptions C38_others_nonvacuous.
