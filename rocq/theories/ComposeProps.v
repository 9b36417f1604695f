(** * Composing payments: C37, C38 *)
From Coq Require Import Ascii String.
From Verif Require Import Base Str Core InvoiceModel SupplModel ContainerModel PIndexModel StateModel StashModel StockModel ConsignModel IfaceModel IfaceProps
  BuilderModel BuilderSpec BuilderProofs BuilderProps Ser ComposeModel ComposeSpec ComposeProofs ComposeMain ComposePaid ComposeBlank ComposeErr.
Local Open Scope list_scope.
Local Open Scope N_scope.

Section Props.
Context (H : Hashes) (D : Defs) (P : Pedersen) (wrap : bool) (s : Stock) (ch : Choices) (od : Orders).

(** A call which composes a payment of [amt] of the type [a], under these conditions: [l] is the
    state of the contract on the given outputs, no assignment of which is seen with two
    witnesses; sums are not too great (or stop the program); the functions of the payer give
    different outputs or blindings to inputs of one type and to the change. *)
Definition paying (inv : RgbInvoice) (prev : list OutSeal) (method : CloseMethod) (vout : option N) (cid tt a amt : N) (l : list Inp) : Prop :=
  orders_ok od /\ schemata_small D /\ owned_state inv = ISAmount amt /\ asks D s inv cid tt a /\ spent s cid prev l /\ no_wrap wrap a l /\
  separate ch use_main cid (velocity_for D s cid) (other_types a l) /\
  change_apart ch method cid a (velocity_for D s cid) (xcn_into_inner (beneficiary inv)) vout.

(** ** C38: what becomes of the state of the contract

    All inputs are spent, one transition for each closing method.  In a transition the state of
    other types goes to the payer, and the amount of its inputs to the beneficiary and to the
    payer; nothing else is in it. *)
Theorem C38_amount_partial inv prev method vout priority now batch cid tt a amt l :
  paying inv prev method vout cid tt a amt l ->
  compose H D P wrap s ch od inv prev method vout priority now = Ok batch ->
  let layer := layer1 (chain_network (beneficiary inv)) in
  spends_all cid l (di_iter (ba_main batch)) /\
  exists ben change tag, is_beneficiary D ch layer cid a (xcn_into_inner (beneficiary inv)) vout ben /\
    payer_seal ch method layer UChange cid a (velocity_for D s cid a) change /\ ben <> change /\
    (0 < total a l -> exists g, stash_genesis (sk_stash s) cid = Ok g /\ latest (df_tags D g) a = Some tag) /\
    forall t, In t (di_iter (ba_main batch)) -> op_ty (ti_transition t) = tt /\
      exists R, Forall2 (moved ch method layer use_main cid (velocity_for D s cid)) (other_types a (with_method (ti_method t) l)) R /\
        Permutation (shown (ti_transition t))
          (R ++ amount_to a tag ben (paid amt method a l (ti_method t)) ++
           amount_to a tag change (total a (with_method (ti_method t) l) - paid amt method a l (ti_method t))).
Proof.
  intros (P1 & P2 & P3 & P4 & P5 & P6 & P7 & P8) E.
  destruct (compose_amount _ _ _ _ _ _ _ _ _ _ _ _ _ _ _ _ _ _ _ P1 P2 P3 P4 P5 P6 P7 P8 E) as (_ & _ & Hs & Hr). split; [exact Hs|exact Hr].
Qed.

(** A payment of an allocation: one transition, whose inputs have it, gives it to the
    beneficiary.  State of other types goes to the payer.  Missing from C38: other allocations
    of the type go nowhere (see [C38_data_refuted]). *)
Theorem C38_data_partial inv prev method vout priority now batch cid tt a l al :
  orders_ok od -> schemata_small D -> owned_state inv = ISData al -> asks D s inv cid tt a -> spent s cid prev l -> no_wrap wrap a l ->
  separate ch use_main cid (velocity_for D s cid) (other_types a l) ->
  compose H D P wrap s ch od inv prev method vout priority now = Ok batch ->
  let layer := layer1 (chain_network (beneficiary inv)) in
  spends_all cid l (di_iter (ba_main batch)) /\
  exists ben payer, is_beneficiary D ch layer cid a (xcn_into_inner (beneficiary inv)) vout ben /\
    In (df_alloc D al) (data_in a (with_method payer l)) /\
    forall t, In t (di_iter (ba_main batch)) -> op_ty (ti_transition t) = tt /\
      exists R, Forall2 (moved ch method layer use_main cid (velocity_for D s cid)) (other_types a (with_method (ti_method t) l)) R /\
        Permutation (shown (ti_transition t))
          (R ++ if keqb (ti_method t) payer then [(a, assigned ben (RData (df_alloc D al) (ch_seal ch USalt cid a)))] else []).
Proof.
  intros P1 P2 P3 P4 P5 P6 P7 E. destruct (compose_data _ _ _ _ _ _ _ _ _ _ _ _ _ _ _ _ _ _ _ P1 P2 P3 P4 P5 P6 P7 E) as (_ & Hs & Hr). split; [exact Hs|exact Hr].
Qed.

(** The state of other contracts which the index finds on the outputs (C25) goes to the payer in
    blank transitions. *)
Theorem C38_blanks_partial inv prev method vout priority now batch cid :
  orders_ok od -> schemata_small D -> InvoiceModel.contract inv = Some cid ->
  compose H D P wrap s ch od inv prev method vout priority now = Ok batch ->
  let layer := layer1 (chain_network (beneficiary inv)) in
  exists ids, NoDup ids /\ (forall id, In id ids <-> In id (contracts_assigning (sk_index s) (sfrom (map os_outpoint prev))) /\ id <> cid) /\
    Forall2 (fun id d => forall l, spent s id prev l -> separate ch use_blank id (velocity_for D s id) l ->
      l <> [] /\ spends_all id l (di_iter d) /\
      forall t, In t (di_iter d) -> op_ty (ti_transition t) = BLANK /\
        exists R, Forall2 (moved ch method layer use_blank id (velocity_for D s id)) (with_method (ti_method t) l) R /\
          Permutation (shown (ti_transition t)) R) ids (ba_blanks batch).
Proof. intros P1 P2 P3 E. exact (compose_blanks _ _ _ _ _ _ _ _ _ _ _ _ _ _ _ P1 P2 P3 E). Qed.

(** The velocity which is asked for is the one which the first supplement of the contract gives
    the type, if it can be read *)
Theorem C38_velocity_partial cid ty v : velocity_for D s cid ty = v <->
  match stash_supplements (sk_stash s) (TagGenesis, cid) with
  | sup :: _ => match annotation (df_suppl D sup) SubAssignment (ItTypeNo ty) SUPPL_ANNOT_VELOCITY with
                | Some b => match df_velocity D b with Some v' => v = v' | None => v = VhUnspecified end
                | None => v = VhUnspecified
                end
  | [] => v = VhUnspecified
  end.
Proof.
  unfold velocity_for, suppl_get. destruct (stash_supplements _ _) as [|sup r]; [split; congruence|].
  destruct (annotation _ _ _ _) as [b|]; cbn; [|split; congruence]. destruct (df_velocity D b); split; congruence.
Qed.

(** ** C37 *)

(** The beneficiary receives the invoiced amount, of the type of the invoice. *)
Theorem C37_paid_partial inv prev method vout priority now batch cid tt a amt l :
  paying inv prev method vout cid tt a amt l ->
  compose H D P wrap s ch od inv prev method vout priority now = Ok batch ->
  exists ben, is_beneficiary D ch (layer1 (chain_network (beneficiary inv))) cid a (xcn_into_inner (beneficiary inv)) vout ben /\
    list_sum (map (fun t => paid_to ben a (ti_transition t)) (di_iter (ba_main batch))) = amt.
Proof.
  intros (P1 & P2 & P3 & P4 & P5 & P6 & P7 & P8) E.
  destruct (compose_amount _ _ _ _ _ _ _ _ _ _ _ _ _ _ _ _ _ _ _ P1 P2 P3 P4 P5 P6 P7 P8 E) as (Hamt & _ & Hs & ben & change & tag & Hb & _ & Hne & _ & Ht).
  exists ben. split; [exact Hb|].
  assert (Em : map (fun t => paid_to ben a (ti_transition t)) (di_iter (ba_main batch)) = map (fun t => paid amt method a l (ti_method t)) (di_iter (ba_main batch))).
  { apply map_ext_in. intros t Hi. destruct (Ht t Hi) as (_ & R & FR & Hp). rewrite paid_to_shown.
    transitivity (list_sum (map (amount_out a) (filter (fun p => goes_to ben (snd p))
      (R ++ amount_to a tag ben (paid amt method a l (ti_method t)) ++ amount_to a tag change (total a (with_method (ti_method t) l) - paid amt method a l (ti_method t)))))).
    - apply list_sum_perm. apply Permutation_map. apply BuilderComplete.filter_perm. exact Hp.
    - rewrite !filter_app, !map_app, !list_sum_app. rewrite (moved_not _ _ _ _ _ _ _ _ _ _ FR), amount_to_goes, (amount_to_not _ _ _ _ _ Hne), N.eqb_refl. cbn. unfold list_sum. cbn. lia. }
  rewrite Em. pose proof (total_split a method l) as Hsp.
  rewrite (sum_methods cid l _ (paid amt method a l) Hs).
  - unfold paid. destruct method; cbn [other] in Hsp; change (keqb TapretFirst OpretFirst) with false; change (keqb OpretFirst TapretFirst) with false; rewrite !keqb_refl; lia.
  - intros m Hm. unfold paid. destruct (keqb_spec m method) as [->|Ne].
    + rewrite Hm. cbn. lia.
    + assert (m = other method) as -> by (destruct m, method; cbn; congruence). rewrite Hm in Hsp. cbn in Hsp. lia.
Qed.

(** In each transition of the contract the amounts which come out are those which go in, for
    each type. *)
Theorem C37_balanced_partial inv prev method vout priority now batch cid tt a amt l ty :
  paying inv prev method vout cid tt a amt l ->
  compose H D P wrap s ch od inv prev method vout priority now = Ok batch ->
  forall t, In t (di_iter (ba_main batch)) -> total_out ty (ti_transition t) = total ty (with_method (ti_method t) l).
Proof.
  intros (P1 & P2 & P3 & P4 & P5 & P6 & P7 & P8) E.
  destruct (compose_amount _ _ _ _ _ _ _ _ _ _ _ _ _ _ _ _ _ _ _ P1 P2 P3 P4 P5 P6 P7 P8 E) as (Hamt & _ & Hs & ben & change & tag & _ & _ & _ & _ & Ht).
  intros t Hi. destruct (Ht t Hi) as (_ & R & FR & Hp). rewrite total_out_shown, (list_sum_perm _ _ (Permutation_map _ Hp)), !map_app, !list_sum_app, !amount_to_out, (moved_total _ _ _ _ _ _ _ _ _ FR).
  destruct (N.eqb_spec a ty) as [->|Ne].
  - rewrite total_other_same. pose proof (total_split ty method l) as Hsp.
    assert (Hpd : paid amt method ty l (ti_method t) <= total ty (with_method (ti_method t) l)).
    { unfold paid. destruct (keqb_spec (ti_method t) method) as [->|Nm]; [lia|]. assert (ti_method t = other method) as -> by (destruct (ti_method t), method; cbn; congruence). lia. }
    lia.
  - rewrite total_other by congruence. lia.
Qed.

(** The same for the transitions of other contracts *)
Theorem C37_blank_balanced_partial inv prev method vout priority now batch cid :
  orders_ok od -> schemata_small D -> InvoiceModel.contract inv = Some cid ->
  compose H D P wrap s ch od inv prev method vout priority now = Ok batch ->
  exists ids, NoDup ids /\ (forall id, In id ids <-> In id (contracts_assigning (sk_index s) (sfrom (map os_outpoint prev))) /\ id <> cid) /\
    Forall2 (fun id d => forall l ty, spent s id prev l -> separate ch use_blank id (velocity_for D s id) l ->
      forall t, In t (di_iter d) -> total_out ty (ti_transition t) = total ty (with_method (ti_method t) l)) ids (ba_blanks batch).
Proof.
  intros P1 P2 P3 E. destruct (compose_blanks _ _ _ _ _ _ _ _ _ _ _ _ _ _ _ P1 P2 P3 E) as (ids & H1 & H2 & F). exists ids. split; [exact H1|]. split; [exact H2|].
  clear -F. induction F as [|id d ids ds B F IH]; constructor; [|exact IH]. intros l ty Hsp Hsep t Hi. destruct (B l Hsp Hsep) as (_ & _ & Ht).
  destruct (Ht t Hi) as (_ & R & FR & Hp). rewrite total_out_shown, (list_sum_perm _ _ (Permutation_map _ Hp)). apply (moved_total _ _ _ _ _ _ _ _ _ FR).
Qed.

(** A payment is made only with enough of the state, and is refused for too little only if there
    is too little (or no input at all).  Missing from C37: there are other reasons to refuse
    (see [C37_no_change_refuted]). *)
Theorem C37_enough_partial inv prev method vout priority now cid tt a amt l :
  paying inv prev method vout cid tt a amt l ->
  (forall batch, compose H D P wrap s ch od inv prev method vout priority now = Ok batch -> amt <= total a l /\ l <> []) /\
  (compose H D P wrap s ch od inv prev method vout priority now = Err InsufficientState -> total a l < amt \/ l = []).
Proof.
  intros (P1 & P2 & P3 & P4 & P5 & P6 & P7 & P8). split.
  - intros batch E. destruct (compose_amount _ _ _ _ _ _ _ _ _ _ _ _ _ _ _ _ _ _ _ P1 P2 P3 P4 P5 P6 P7 P8 E) as (Hamt & Hn & _). auto.
  - intros E. exact (compose_insufficient _ _ _ _ _ _ _ _ _ _ _ _ _ _ _ _ _ _ P1 P3 P4 P5 P6 E).
Qed.

(** An invoice is not paid after its time. *)
Theorem C37_expired_partial inv prev method vout priority now t :
  expiry inv = Some t -> (t < now)%Z -> compose H D P wrap s ch od inv prev method vout priority now = Err InvoiceExpired.
Proof. intros Et Hl. unfold compose. rewrite Et. cbv zeta. apply Z.ltb_lt in Hl. rewrite Hl. reflexivity. Qed.
End Props.

(** ** A world *)
Definition cx_vel : blob := [9].
Definition cx_suppl : Supplement :=
  {| sp_content := (TagGenesis, 600); sp_timestamp := 0%Z; sp_creator := 0;
     sp_annotations := [(SubAssignment, [(ItTypeNo 10, [(SUPPL_ANNOT_VELOCITY, cx_vel)])])] |}.
Definition cx_defs : Defs :=
  {| df_schema := fun _ => bx_schema; df_iface := fun _ => bx_iface; df_impl := fun _ => bx_impl; df_suppl := fun _ => cx_suppl;
     df_velocity := fun b => match b with [9] => Some VhRegular | _ => None end;
     df_tags := fun _ => [(10, 77)]; df_fits := fun _ sem v => v <? 100; df_layer := fun _ => Bitcoin; df_secret := fun _ x => x;
     df_name := fun n => len n; df_alloc := fun al => al_index al |}.
Definition cx_genesis (cid : N) : Operation :=
  {| op_kind := OpGenesis; op_head := cid; op_contract := cid; op_ty := 50; op_nonce := 0; op_meta := []; op_globals := []; op_inputs := [];
     op_redeemed := []; op_assigns := []; op_valencies := [] |}.
Definition cx_stash : MemStash :=
  {| st_schemata := [(50, {| si_schema := {| sch_id := 50; sch_globals := []; sch_libs := []; sch_types := [] |};
                             si_impls := [(1, {| im_id := 5; im_schema := 50; im_iface := 1 |})] |})];
     st_ifaces := [(1, {| if_id := 1; if_name := 1; if_inherits := []; if_types := [] |})];
     st_geneses := [(600, cx_genesis 600); (700, cx_genesis 700)];
     st_suppl := [((TagGenesis, 600), [{| su_content := (TagGenesis, 600); su_data := 1 |}])]; st_bundles := []; st_extensions := []; st_witnesses := [];
     st_attachments := []; st_seals := []; st_types := []; st_identities := []; st_libs := []; st_sigs := [] |}.
Definition cx_seal (m : CloseMethod) (v : N) : OutSeal := {| os_layer := Bitcoin; os_method := m; os_txid := 9; os_vout := v |}.
Definition cx_out (ty no : N) : Opout := {| oo_op := 500; oo_ty := ty; oo_no := no |}.
Definition cx_outs (k : StateKind) (l : list Inp) : Outputs :=
  mfrom (map (fun x => ((in_out x, in_seal x), (in_state x, None))) (filter (fun x => kind_eqb (kind_of (in_state x)) k) l)).
Definition cx_contract (cid : N) (l : list Inp) : ContractState :=
  {| cs_schema := 50; cs_contract := cid; cs_global := []; cs_rights := cx_outs KDeclarative l; cs_fungibles := cx_outs KFungible l;
     cs_data := cx_outs KStructured l; cs_attach := cx_outs KAttachment l |}.
Definition cx_index (l : list Inp) : ContractIndex :=
  {| ci_public := []; ci_outs := mfrom (map (fun x => (in_seal x, [in_out x])) l) |}.
Definition cx_stock (l l' lx : list Inp) : Stock :=
  {| sk_stash := cx_stash;
     sk_state := {| ms_witnesses := []; ms_contracts := [(600, cx_contract 600 l); (700, cx_contract 700 l')] |};
     sk_index := {| mi_op_bundle := []; mi_bundle_contract := []; mi_bundle_witness := [];
                    mi_contracts := [(600, cx_index l); (700, cx_index lx)]; mi_terminals := [] |} |}.
(** The payer gives each input an output, or all the same one *)
Definition cx_apart : Choices :=
  {| ch_alloc := fun u _ _ _ => Some match u with UMain _ o | UBlank _ o => 10 + oo_no o | UChange => 5 | _ => 0 end;
     ch_blind := fun _ _ _ => 4; ch_seal := fun _ _ _ => 3 |}.
Definition cx_same (change : option N) : Choices :=
  {| ch_alloc := fun u _ _ _ => match u with UChange => change | _ => Some 1 end; ch_blind := fun _ _ _ => 4; ch_seal := fun _ _ _ => 3 |}.
Definition cx_orders : Orders :=
  {| or_outs := fun _ m => m; or_assigns := fun _ _ m => m; or_contracts := fun m => rev m; or_rights := fun l => l |}.
Lemma cx_orders_ok : orders_ok cx_orders.
Proof. repeat split; cbn; intros; try apply Permutation_refl. apply Permutation_sym, Permutation_rev. Qed.
Lemma cx_small : schemata_small cx_defs.
Proof. intros r. vm_compute. discriminate. Qed.
Definition cx_invoice (b : Beneficiary) (st : InvoiceState) (asn : option str) : RgbInvoice :=
  {| transports := []; InvoiceModel.contract := Some 600; InvoiceModel.iface := Some (lit "A"%string); InvoiceModel.operation := None; InvoiceModel.assignment := asn;
     beneficiary := XBitcoinMainnet b; owned_state := st; expiry := Some 100%Z; unknown_query := [] |}.
Definition cx_compose wrap ch l l' lx inv prev method vout : result ComposeError Batch :=
  compose bit_hashes cx_defs bx_pedersen wrap (cx_stock l l' lx) ch cx_orders inv prev method vout 7 50%Z.

(** The state of a contract as a list *)
Definition inp_of (x : OutAssign) : Inp := (oa_seal x, (oa_opout x, oa_state x)).
Lemma spent_of s cid prev c l : contract_state (sk_state s) cid = Ok c ->
  map inp_of (filter (fun x => existsb (keqb (os_outpoint (oa_seal x))) (map os_outpoint prev)) (all_outs c)) = l ->
  NoDup (map in_out l) -> spent s cid prev l.
Proof.
  intros Hc El ND. split; [exact ND|]. intros x. rewrite <- El, in_map_iff. split.
  - intros (o & <- & Ho). apply filter_In in Ho as [Ho Hp]. split.
    + apply In_all_outs in Ho as (k & Hk). exists c, k, (oa_witness o). split; [exact Hc|]. destruct o. exact Hk.
    + apply existsb_exists in Hp as (q & Hq & E). apply keqb_true in E. unfold inp_of, in_seal. cbn. rewrite E. exact Hq.
  - intros [(c' & k & w & Hc' & Hi) Hp]. rewrite Hc in Hc'. apply Ok_inj in Hc'. subst c'. eexists. split; [|apply filter_In; split; [apply In_all_outs; exists k; exact Hi|]].
    + destruct x as [seal [o st]]. reflexivity.
    + apply existsb_exists. exists (os_outpoint (in_seal x)). split; [exact Hp|apply keqb_refl].
Qed.
Ltac nodup := repeat constructor; cbn; intuition discriminate.
Lemma cx_asks l l' lx b st : asks cx_defs (cx_stock l l' lx) (cx_invoice b st None) 600 20 10.
Proof.
  eexists (lit "A"%string), (cx_genesis 600), _, _, _, bx. repeat (split; [reflexivity|]). split; [exists 20; split; reflexivity|].
  exists 10. split; [reflexivity|]. exists 20. eexists. repeat split; reflexivity.
Qed.
Lemma cx_asks_data l l' lx b st : asks cx_defs (cx_stock l l' lx) (cx_invoice b st (Some (lit "assetOwner12"%string))) 600 20 12.
Proof.
  eexists (lit "A"%string), (cx_genesis 600), _, _, _, bx. repeat (split; [reflexivity|]). split; [exists 20; split; reflexivity|].
  exists 12. split; reflexivity.
Qed.

(** Contract 600 has amounts with both methods, two rights and a datum; contract 700 an amount
    and an attachment. *)
Definition cx_l : list Inp :=
  [(cx_seal TapretFirst 1, (cx_out 10 0, RAmount 30 11 77)); (cx_seal OpretFirst 2, (cx_out 10 1, RAmount 25 12 77));
   (cx_seal OpretFirst 2, (cx_out 12 0, RData 6 4));
   (cx_seal TapretFirst 1, (cx_out 11 0, RVoid)); (cx_seal TapretFirst 1, (cx_out 11 1, RVoid))].
Definition cx_l' : list Inp :=
  [(cx_seal TapretFirst 1, (cx_out 10 0, RAmount 8 11 77)); (cx_seal OpretFirst 2, (cx_out 13 0, RAttach 9 9))].
Definition cx_prev : list OutSeal := [cx_seal TapretFirst 1; cx_seal OpretFirst 2].
Lemma cx_spent : spent (cx_stock cx_l cx_l' cx_l') 600 cx_prev cx_l.
Proof. eapply spent_of; [reflexivity|vm_compute; reflexivity|nodup]. Qed.
Lemma cx_spent' : spent (cx_stock cx_l cx_l' cx_l') 700 cx_prev cx_l'.
Proof. eapply spent_of; [reflexivity|vm_compute; reflexivity|nodup]. Qed.

(** Forty are paid with both methods, fifteen are change; the rights, the datum and the state of
    contract 700 are moved. *)
Example C37_nonvacuous : exists batch i1 i2 blank,
  paying cx_defs false (cx_stock cx_l cx_l' cx_l') cx_apart cx_orders (cx_invoice (BlindedSeal 33) (ISAmount 40) None) cx_prev TapretFirst None 600 20 10 40 cx_l /\
  cx_compose false cx_apart cx_l cx_l' cx_l' (cx_invoice (BlindedSeal 33) (ISAmount 40) None) cx_prev TapretFirst None = Ok batch /\
  di_iter (ba_main batch) = [i1; i2] /\ map (paid_to (BConcealed 33) 10) [ti_transition i1; ti_transition i2] = [30; 10] /\
  map (total_out 10) [ti_transition i1; ti_transition i2] = [30; 25] /\ len (made (ti_transition i1)) = 3 /\ len (made (ti_transition i2)) = 3 /\
  ba_blanks batch = [blank] /\ len (di_iter blank) = 2 /\
  separate cx_apart use_blank 700 (velocity_for cx_defs (cx_stock cx_l cx_l' cx_l') 700) cx_l' /\
  velocity_for cx_defs (cx_stock cx_l cx_l' cx_l') 600 10 = VhRegular.
Proof.
  destruct (cx_compose false cx_apart cx_l cx_l' cx_l' (cx_invoice (BlindedSeal 33) (ISAmount 40) None) cx_prev TapretFirst None) as [batch| |] eqn:E;
    [|exfalso; vm_compute in E; discriminate E|exfalso; vm_compute in E; discriminate E].
  vm_compute in E. injection E as <-. eexists _, _, _, _. split; [|split; [reflexivity|]].
  - split; [exact cx_orders_ok|]. split; [exact cx_small|]. split; [reflexivity|]. split; [apply cx_asks|]. split; [exact cx_spent|]. split; [left; reflexivity|]. split; [|exact I].
    intros x y Hx Hy Et _ Ea _. vm_compute in Hx, Hy. repeat destruct Hx as [<-|Hx]; try destruct Hx; repeat destruct Hy as [<-|Hy]; try destruct Hy; try reflexivity; vm_compute in Et, Ea; discriminate.
  - split; [reflexivity|]. split; [vm_compute; reflexivity|]. split; [vm_compute; reflexivity|]. split; [reflexivity|]. split; [reflexivity|]. split; [reflexivity|]. split; [reflexivity|]. split.
    + intros x y Hx Hy Et _ _ _. vm_compute in Hx, Hy. repeat destruct Hx as [<-|Hx]; try destruct Hx; repeat destruct Hy as [<-|Hy]; try destruct Hy; try reflexivity; vm_compute in Et; discriminate.
    + vm_compute. reflexivity.
Qed.

(** ** What does not hold *)

(** No assignment of the batch has the datum. *)
Definition nowhere (v : N) (batch : Batch) : Prop :=
  forall t p salt, In t (flat_map di_iter (ba_main batch :: ba_blanks batch)) -> In p (made (ti_transition t)) -> revealed_state (snd p) <> Some (RData v salt).
Definition datum_of (p : N * Assign) : option N := match revealed_state (snd p) with Some (RData v _) => Some v | _ => None end.
Lemma nowhere_of v batch :
  forallb (fun t => forallb (fun p => negb (keqb (datum_of p) (Some v))) (made (ti_transition t))) (flat_map di_iter (ba_main batch :: ba_blanks batch)) = true ->
  nowhere v batch.
Proof.
  intros Hf t p salt Ht Hp E. rewrite forallb_forall in Hf. specialize (Hf t Ht). cbv beta in Hf. rewrite forallb_forall in Hf. specialize (Hf p Hp).
  unfold datum_of in Hf. rewrite E, keqb_refl in Hf. discriminate.
Qed.
Ltac composed batch E := match goal with |- context [cx_compose ?w ?c ?l ?l' ?lx ?i ?p ?m ?v] =>
  destruct (cx_compose w c l l' lx i p m v) as [batch| |] eqn:E; [|exfalso; vm_compute in E; discriminate E|exfalso; vm_compute in E; discriminate E];
  vm_compute in E; injection E as <- end.

(** When the functions of the payer give inputs of one type the same output and blinding, as
    functions of the contract and the type alone do, only one of the inputs is moved: of two
    data of a type which is not paid, one is lost. *)
Definition cx_two : list Inp :=
  [(cx_seal TapretFirst 1, (cx_out 10 0, RAmount 30 11 77)); (cx_seal TapretFirst 1, (cx_out 12 0, RData 6 4)); (cx_seal TapretFirst 1, (cx_out 12 1, RData 7 4))].
Theorem C38_same_output_refuted : exists batch,
  cx_compose false (cx_same (Some 5)) cx_two cx_l' cx_l' (cx_invoice (BlindedSeal 33) (ISAmount 20) None) cx_prev TapretFirst None = Ok batch /\
  spent (cx_stock cx_two cx_l' cx_l') 600 cx_prev cx_two /\ In (cx_seal TapretFirst 1, (cx_out 12 0, RData 6 4)) cx_two /\ nowhere 6 batch.
Proof.
  composed batch E. eexists. split; [reflexivity|]. split; [eapply spent_of; [reflexivity|vm_compute; reflexivity|nodup]|]. split; [cbn; auto|].
  apply nowhere_of. vm_compute. reflexivity.
Qed.
(** The same in other contracts *)
Theorem C38_blank_same_output_refuted : exists batch,
  cx_compose false (cx_same (Some 5)) cx_l cx_two cx_two (cx_invoice (BlindedSeal 33) (ISAmount 20) None) [cx_seal TapretFirst 1] TapretFirst None = Ok batch /\
  spent (cx_stock cx_l cx_two cx_two) 700 [cx_seal TapretFirst 1] cx_two /\ In (cx_seal TapretFirst 1, (cx_out 12 0, RData 6 4)) cx_two /\ nowhere 6 batch.
Proof.
  composed batch E. eexists. split; [reflexivity|]. split; [eapply spent_of; [reflexivity|vm_compute; reflexivity|nodup]|]. split; [cbn; auto|].
  apply nowhere_of. vm_compute. reflexivity.
Qed.

(** When an allocation is paid, the other allocations of the type on the outputs are lost, also
    when the payer separates all outputs. *)
Theorem C38_data_refuted : exists batch,
  cx_compose false cx_apart cx_two cx_l' cx_l' (cx_invoice (BlindedSeal 33) (ISData {| al_index := 7; al_fraction := 1 |}) (Some (lit "assetOwner12"%string)))
    cx_prev TapretFirst None = Ok batch /\
  spent (cx_stock cx_two cx_l' cx_l') 600 cx_prev cx_two /\ In (cx_seal TapretFirst 1, (cx_out 12 0, RData 6 4)) cx_two /\ nowhere 6 batch.
Proof.
  composed batch E. eexists. split; [reflexivity|]. split; [eapply spent_of; [reflexivity|vm_compute; reflexivity|nodup]|]. split; [cbn; auto|].
  apply nowhere_of. vm_compute. reflexivity.
Qed.

(** The payment of the datum in that call *)
Example C38_data_nonvacuous : exists batch i,
  cx_compose false cx_apart cx_two cx_l' cx_l' (cx_invoice (BlindedSeal 33) (ISData {| al_index := 7; al_fraction := 1 |}) (Some (lit "assetOwner12"%string)))
    cx_prev TapretFirst None = Ok batch /\
  asks cx_defs (cx_stock cx_two cx_l' cx_l') (cx_invoice (BlindedSeal 33) (ISData {| al_index := 7; al_fraction := 1 |}) (Some (lit "assetOwner12"%string))) 600 20 12 /\
  separate cx_apart use_main 600 (velocity_for cx_defs (cx_stock cx_two cx_l' cx_l') 600) (other_types 12 cx_two) /\
  di_iter (ba_main batch) = [i] /\ In (12, assigned (BConcealed 33) (RData 7 3)) (made (ti_transition i)).
Proof.
  composed batch E. eexists _, _. split; [reflexivity|]. split; [apply cx_asks_data|]. split.
  - intros x y Hx Hy _ _ _ _. vm_compute in Hx, Hy. destruct Hx as [<-|[]], Hy as [<-|[]]. reflexivity.
  - split; [reflexivity|]. vm_compute. auto.
Qed.

(** When the change is given the output of the beneficiary with the same blinding, it takes the
    place of the payment. *)
Theorem C37_change_output_refuted : exists batch i ben,
  cx_compose false (cx_same (Some 2)) [(cx_seal TapretFirst 1, (cx_out 10 0, RAmount 30 11 77))] [] []
    (cx_invoice (WitnessVout {| p2v_method := TapretFirst; p2v_address := Pkh [] |}) (ISAmount 20) None) cx_prev TapretFirst (Some 2) = Ok batch /\
  is_beneficiary cx_defs (cx_same (Some 2)) Bitcoin 600 10 (WitnessVout {| p2v_method := TapretFirst; p2v_address := Pkh [] |}) (Some 2) ben /\
  di_iter (ba_main batch) = [i] /\ paid_to ben 10 (ti_transition i) = 10 /\ total_out 10 (ti_transition i) = 10.
Proof.
  composed batch E. eexists _, _, _. split; [reflexivity|]. split; [exists 2; split; reflexivity|]. split; [reflexivity|]. split; vm_compute; reflexivity.
Qed.

(** A payment of all there is fails when no output is given for the change, though there is no
    change. *)
Theorem C37_no_change_refuted :
  cx_compose false (cx_same None) [(cx_seal TapretFirst 1, (cx_out 10 0, RAmount 30 11 77))] [] [] (cx_invoice (BlindedSeal 33) (ISAmount 30) None) cx_prev TapretFirst None
  = Err (NoBlankOrChange VhRegular 10).
Proof. vm_compute. reflexivity. Qed.

(** In builds which wrap around, amounts with a sum over 2^64 are lost. *)
Definition cx_great : list Inp :=
  [(cx_seal TapretFirst 1, (cx_out 10 0, RAmount (2 ^ 63) 11 77)); (cx_seal TapretFirst 1, (cx_out 10 1, RAmount (2 ^ 63 + 10) 11 77))].
Theorem C37_wrapped_refuted :
  (exists batch i,
     cx_compose true cx_apart cx_great [] [] (cx_invoice (BlindedSeal 33) (ISAmount 5) None) cx_prev TapretFirst None = Ok batch /\
     spent (cx_stock cx_great [] []) 600 cx_prev cx_great /\ di_iter (ba_main batch) = [i] /\
     total_out 10 (ti_transition i) = 10 /\ total 10 cx_great = 2 ^ 64 + 10) /\
  cx_compose true cx_apart cx_great [] [] (cx_invoice (BlindedSeal 33) (ISAmount 50) None) cx_prev TapretFirst None = Err InsufficientState.
Proof.
  split; [|vm_compute; reflexivity]. composed batch E. eexists _, _. split; [reflexivity|].
  split; [eapply spent_of; [reflexivity|vm_compute; reflexivity|nodup]|]. split; [reflexivity|]. split; vm_compute; reflexivity.
Qed.

(** An assignment which is seen with two witnesses (both valid, on two of the outputs) is counted
    twice but spent once. *)
Definition cx_twice : list Inp :=
  [(cx_seal TapretFirst 1, (cx_out 10 0, RAmount 30 11 77)); (cx_seal TapretFirst 2, (cx_out 10 0, RAmount 30 11 77))].
Theorem C37_two_witnesses_refuted : exists batch i,
  cx_compose false cx_apart cx_twice [] [] (cx_invoice (BlindedSeal 33) (ISAmount 50) None) [cx_seal TapretFirst 1; cx_seal TapretFirst 2] TapretFirst None = Ok batch /\
  di_iter (ba_main batch) = [i] /\ op_inputs (ti_transition i) = [cx_out 10 0] /\ total_out 10 (ti_transition i) = 60.
Proof. composed batch E. eexists _, _. repeat (split; [reflexivity|]). vm_compute. reflexivity. Qed.

(** An invoice for no state, or for an attachment, makes the program panic. *)
Theorem C37_other_state_refuted wrap ch l l' lx b prev method vout st batch :
  st = ISVoid \/ (exists id, st = ISAttach id) -> cx_compose wrap ch l l' lx (cx_invoice b st None) prev method vout <> Ok batch.
Proof.
  intros Hst E. destruct (compose_ok _ _ _ _ _ _ _ _ _ _ _ _ _ _ E) as (iface & cid' & tt' & a' & X & b0 & T & ben & m & w & w' & spm & blanks & builders & first & second & _ & _ & _ & _ & _ & _ & _ & _ & K8 & _).
  cbn in K8. destruct Hst as [->|(id & ->)]; discriminate K8.
Qed.
Example C37_other_state_panics :
  cx_compose false cx_apart cx_l cx_l' cx_l' (cx_invoice (BlindedSeal 33) ISVoid None) cx_prev TapretFirst None = Panic.
Proof. vm_compute. reflexivity. Qed.

(** A contract which the index has on the outputs, and whose state there is not known (because it
    is concealed), makes the program panic. *)
Theorem C38_concealed_state_refuted :
  cx_compose false cx_apart cx_l [] cx_l' (cx_invoice (BlindedSeal 33) (ISAmount 40) None) cx_prev TapretFirst None = Panic.
Proof. vm_compute. reflexivity. Qed.

Print Assumptions C38_amount_partial.
Print Assumptions C38_data_partial.
Print Assumptions C38_blanks_partial.
Print Assumptions C38_velocity_partial.
Print Assumptions C37_paid_partial.
Print Assumptions C37_balanced_partial.
Print Assumptions C37_blank_balanced_partial.
Print Assumptions C37_enough_partial.
Print Assumptions C37_expired_partial.
Print Assumptions C38_same_output_refuted.
Print Assumptions C38_blank_same_output_refuted.
Print Assumptions C38_data_refuted.
Print Assumptions C38_concealed_state_refuted.
Print Assumptions C37_change_output_refuted.
Print Assumptions C37_no_change_refuted.
Print Assumptions C37_wrapped_refuted.
Print Assumptions C37_two_witnesses_refuted.
Print Assumptions C37_other_state_refuted.
