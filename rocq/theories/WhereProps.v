(** * On which chain a payment is made: property theorems C82 *)
From Coq Require Import Ascii String Lia.
From Verif Require Import Base Str StM Core Ser MergeModel MergeSpec MergeProofs ContainerModel ContainerSpec ContainerProofs.
From Verif Require Import PIndexModel PIndexSpec PIndexProofs StateModel StateSpec StateProofs StashModel StashSpec StashProofs StashAgain StashProps.
From Verif Require Import StockModel StockProofs StockAgain ConsignModel ConsignSpec ConsignProofs ConsignAccept ConsignProps FasciaProps StockProps StateProps.
From Verif Require Import TransferProofs TransferSpec TransferProps ExportProps.
From Verif Require Import InvoiceModel SupplModel IfaceModel BuilderModel BuilderSpec BuilderProofs BuilderComplete BuilderProps ComposeModel ComposeSpec ComposeProofs ComposeMain ComposePaid
  ComposeBlank ComposeErr ComposeProps FoundProps PaySpec PayProofs PayProps WhereSpec WhereProofs.
Local Open Scope list_scope.
Local Open Scope N_scope.

(** Everything which a composed batch assigns is on the chain of the invoice: to the beneficiary
    as the invoice says, everything else to outputs of the payment with the closing method of the
    payer.  The blank transitions of other contracts assign nothing to the beneficiary. *)
Theorem C82_chain_partial H D P wrap s ch od inv prev method vout priority now batch :
  let layer := layer1 (chain_network (beneficiary inv)) in
  orders_ok od -> schemata_small D ->
  compose H D P wrap s ch od inv prev method vout priority now = Ok batch ->
  (forall i p, In i (di_iter (ba_main batch)) -> In p (made (ti_transition i)) ->
     to_payer layer method (snd p) \/ to_beneficiary D layer vout (xcn_into_inner (beneficiary inv)) (snd p)) /\
  (forall d i p, In d (ba_blanks batch) -> In i (di_iter d) -> In p (made (ti_transition i)) -> to_payer layer method (snd p)).
Proof. apply compose_placed. Qed.
Print Assumptions C82_chain_partial.

(** A stock consumes a transaction with such transitions only if it is one of the chain of the
    invoice (an assignment to a secret seal does not show its chain). *)
Theorem C82_consumed_partial (OG : OrdKey GlobalOut) H K D P wrap s ch od inv prev method vout priority now batch d i p x st f r sA sA' cid :
  collision_free H -> orders_ok od -> schemata_small D ->
  compose H D P wrap s ch od inv prev method vout priority now = Ok batch ->
  In d (ba_main batch :: ba_blanks batch) -> In i (di_iter d) -> In p (made (ti_transition i)) -> snd p = Revealed x st ->
  published H K f r sA sA' cid (di_iter d) ->
  w_layer (fascia_witness_id f) = layer1 (chain_network (beneficiary inv)).
Proof.
  intros HC Ho Hs E Hd Hi Hp Ex (Re & Okf & Ef & _ & Co).
  assert (Hx : at_payment (layer1 (chain_network (beneficiary inv))) x).
  { destruct (C82_chain_partial H D P wrap s ch od inv prev method vout priority now batch Ho Hs E) as [Hm Hb]. destruct Hd as [<-|Hd].
    - destruct (Hm i p Hi Hp) as [T|T]; rewrite Ex in T; [apply T|]. cbn in T. destruct (xcn_into_inner (beneficiary inv)); [destruct T|apply T].
    - pose proof (Hb d i p Hd Hi Hp) as T. rewrite Ex in T. apply T. }
  destruct (Co i Hi) as (b & Hb & Ht). unfold made in Hp. apply in_flat_map in Hp as ([ty ta] & Hta & Hp). apply in_map_iff in Hp as (y & <- & Hy).
  cbn [fst snd] in *. subst y. apply In_nth_error in Hy as (no & Hn).
  destruct (fascia_receives H HC K f r sA sA' cid b _ _ ty ta no x st Re Okf Ef Hb Ht Hta Hn) as (ord & out & a & mc & _ & _ & (_ & _ & _ & So) & _).
  destruct Hx as [Hl Htx]. rewrite Htx in So. rewrite <- Hl. apply So.
Qed.
Print Assumptions C82_consumed_partial.

(** Of an invoice nothing else counts: neither endpoints nor unknown parameters, *)
Theorem C82_takes H D P wrap s ch od i i' prev method vout priority now : same_request i i' ->
  compose H D P wrap s ch od i prev method vout priority now = compose H D P wrap s ch od i' prev method vout priority now.
Proof. apply compose_same. Qed.
Print Assumptions C82_takes.

(** ** Examples and what does not hold *)

Definition wh_invoice (b : XChainNet Beneficiary) : RgbInvoice :=
  {| transports := []; InvoiceModel.contract := Some fd_first; InvoiceModel.iface := Some (lit "A"%string); InvoiceModel.operation := None;
     InvoiceModel.assignment := None; beneficiary := b; owned_state := ISAmount 40; expiry := None; unknown_query := [] |}.
Definition wh_compose {OG : OrdKey GlobalOut} b vout : result ComposeError Batch :=
  compose bit_hashes cx_defs bx_pedersen false py_payer cx_apart cx_orders (wh_invoice b) cx_prev TapretFirst vout 7 50%Z.
Definition wh_address (h : N) : Beneficiary := WitnessVout {| p2v_method := OpretFirst; p2v_address := Wpkh [h] |}.

(** A payment to an address on the third output: the first main transition assigns to the
    beneficiary, the second to both, and the payer's stock consumes the transaction. *)
Definition wh_is (layer : Layer1) (m : CloseMethod) (a : Assign) : bool :=
  match a with Revealed x _ => keqb (s_layer x) layer && keqb (s_method x) m && keqb (s_txid x) None | _ => false end.
Example C82_nonvacuous : forall OG : OrdKey GlobalOut, exists batch i1 i2 sA',
  wh_compose (XBitcoinMainnet (wh_address 1)) (Some 3) = Ok batch /\ di_iter (ba_main batch) = [i1; i2] /\
  map (fun p => (wh_is Bitcoin OpretFirst (snd p), wh_is Bitcoin TapretFirst (snd p))) (made (ti_transition i1)) = [(true, false)] /\
  map (fun p => (wh_is Bitcoin OpretFirst (snd p), wh_is Bitcoin TapretFirst (snd p))) (made (ti_transition i2)) = [(true, false); (false, true)] /\
  len (ba_blanks batch) = 1 /\ fascia_body bit_hashes (py_fascia batch) yes_witness py_payer = (sA', Ok tt).
Proof.
  intros OG. destruct (wh_compose (XBitcoinMainnet (wh_address 1)) (Some 3)) as [batch| |] eqn:E; [|exfalso; vm_compute in E; discriminate E|exfalso; vm_compute in E; discriminate E].
  vm_compute in E. injection E as E.
  assert (E1 : match snd (fascia_body bit_hashes (py_fascia batch) yes_witness py_payer) with Ok _ => true | _ => false end = true) by (subst batch; vm_compute; reflexivity).
  destruct (fascia_body bit_hashes (py_fascia batch) yes_witness py_payer) as [sA' [[]|e|]] eqn:Ef; try discriminate E1.
  subst batch. eexists _, _, _, sA'. split; [reflexivity|]. split; [reflexivity|]. split; [vm_compute; reflexivity|]. split; [vm_compute; reflexivity|]. split; [reflexivity|exact Ef].
Qed.
Example C82_takes_nonvacuous : same_request (wh_invoice (XBitcoinMainnet (wh_address 1))) (wh_invoice (XBitcoinRegtest (wh_address 2))) /\
  wh_invoice (XBitcoinMainnet (wh_address 1)) <> wh_invoice (XBitcoinRegtest (wh_address 2)).
Proof. split; [repeat split|discriminate]. Qed.

(** A contract is either one of test networks or not, so that invoices of the one or of the other
    kind are wrong for it. But what is paid for the one is paid for the other, *)
Theorem C82_network_refuted : ~ forall (OG : OrdKey GlobalOut) H D P wrap s ch od i i' prev method vout priority now b b',
  compose H D P wrap s ch od i prev method vout priority now = Ok b ->
  compose H D P wrap s ch od i' prev method vout priority now = Ok b' ->
  InvoiceModel.contract i = InvoiceModel.contract i' ->
  is_prod (chain_network (beneficiary i)) = is_prod (chain_network (beneficiary i')).
Proof.
  intros F. assert (OG : OrdKey GlobalOut) by exact OrdGlobalOut.
  destruct (C82_nonvacuous OG) as (batch & _ & _ & _ & E & _). pose proof E as E'. unfold wh_compose in E, E'.
  rewrite (C82_takes _ _ _ _ _ _ _ _ _ _ _ _ _ _ (proj1 C82_takes_nonvacuous)) in E'.
  discriminate (F OG _ _ _ _ _ _ _ _ _ _ _ _ _ _ _ _ E E' eq_refl).
Qed.
Print Assumptions C82_network_refuted.

(** and what is paid to one address is paid to the other: that the output which is named has the
    address is left to the caller. *)
Theorem C82_address_refuted : ~ forall (OG : OrdKey GlobalOut) H D P wrap s ch od i i' prev method vout priority now b p p',
  compose H D P wrap s ch od i prev method vout priority now = Ok b ->
  compose H D P wrap s ch od i' prev method vout priority now = Ok b ->
  xcn_into_inner (beneficiary i) = WitnessVout p -> xcn_into_inner (beneficiary i') = WitnessVout p' -> p2v_address p = p2v_address p'.
Proof.
  intros F. assert (OG : OrdKey GlobalOut) by exact OrdGlobalOut.
  destruct (C82_nonvacuous OG) as (batch & _ & _ & _ & E & _). pose proof E as E'. unfold wh_compose in E, E'.
  rewrite (C82_takes _ _ _ _ _ _ _ _ _ _ _ _ _ _ (proj1 C82_takes_nonvacuous)) in E'.
  discriminate (F OG _ _ _ _ _ _ _ _ _ _ _ _ _ _ _ _ _ E E' eq_refl eq_refl).
Qed.
Print Assumptions C82_address_refuted.

(** The chain of the spent outputs is not compared with that of the invoice. Paying an invoice of
    another chain puts the change and the state of other contracts there, *)
Theorem C82_other_chain_refuted : ~ forall (OG : OrdKey GlobalOut) H K D P wrap s ch od inv prev method vout priority now batch cid tt a amt l,
  reachable H K s -> paying D wrap s ch od inv prev method vout cid tt a amt l ->
  compose H D P wrap s ch od inv prev method vout priority now = Ok batch ->
  forall x, In x l -> os_layer (in_seal x) = layer1 (chain_network (beneficiary inv)).
Proof.
  intros F. assert (OG : OrdKey GlobalOut) by exact OrdGlobalOut.
  destruct (wh_compose (XLiquidTestnet (BlindedSeal cn_secret)) None) as [batch| |] eqn:E; [|exfalso; vm_compute in E; discriminate E|exfalso; vm_compute in E; discriminate E].
  assert (Pay : paying cx_defs false py_payer cx_apart cx_orders (wh_invoice (XLiquidTestnet (BlindedSeal cn_secret))) cx_prev TapretFirst None fd_first 20 10 40 py_l).
  { destruct py_paying as (P1 & P2 & P3 & P4 & P5 & P6 & P7 & P8). split; [exact P1|]. split; [exact P2|]. split; [reflexivity|]. split; [exact P4|].
    split; [exact P5|]. split; [exact P6|]. split; [exact P7|exact P8]. }
  unfold wh_compose in E. pose proof (F OG _ cn_merkle _ _ _ _ _ _ _ _ _ _ _ _ _ _ _ _ _ _ py_reachable Pay E _ (or_introl eq_refl)) as X.
  vm_compute in X. discriminate X.
Qed.
Print Assumptions C82_other_chain_refuted.

(** and a stock which is given the transaction with it stops. *)
Theorem C82_consume_panics_refuted : forall OG : OrdKey GlobalOut, exists batch,
  wh_compose (XLiquidTestnet (BlindedSeal cn_secret)) None = Ok batch /\
  reachable bit_hashes cn_merkle py_payer /\ stock_call_ok bit_hashes (SkFascia (py_fascia batch) yes_witness) /\
  commits_to bit_hashes (py_fascia batch) fd_first (di_iter (ba_main batch)) /\
  snd (fascia_body bit_hashes (py_fascia batch) yes_witness py_payer) = Panic.
Proof.
  intros OG. destruct (wh_compose (XLiquidTestnet (BlindedSeal cn_secret)) None) as [batch| |] eqn:E; [|exfalso; vm_compute in E; discriminate E|exfalso; vm_compute in E; discriminate E].
  vm_compute in E. injection E as E. exists batch. split; [reflexivity|]. split; [exact py_reachable|]. split; [|split].
  - assert (Hb : forallb (fun p => bundle_okb bit_hashes (snd p)) (fascia_bundles (py_fascia batch)) = true) by (subst batch; vm_compute; reflexivity).
    rewrite forallb_forall in Hb. intros p Hp. apply bundle_okb_ok, Hb, Hp.
  - apply py_commits. subst batch. vm_compute. reflexivity.
  - subst batch. vm_compute. reflexivity.
Qed.
Print Assumptions C82_consume_panics_refuted.
