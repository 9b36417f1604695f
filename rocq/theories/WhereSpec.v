(** * On which chain a payment is made: specification for C82 *)
From Verif Require Import Base Core InvoiceModel ComposeModel.
Local Open Scope N_scope.

(** The seal is on the chain, at an output of the transaction which closes the spent seals. *)
Definition at_payment (layer : Layer1) (x : Seal) : Prop := s_layer x = layer /\ s_txid x = None.

(** An assignment to the payer, with the closing method of the payer *)
Definition to_payer (layer : Layer1) (method : CloseMethod) (a : Assign) : Prop :=
  match a with Revealed x _ => at_payment layer x /\ s_method x = method | _ => False end.
(** An assignment to the beneficiary: to the secret seal of the invoice, or to an output with the
    closing method which the invoice asks for *)
Definition to_beneficiary (D : Defs) (layer : Layer1) (vout : option N) (b : Beneficiary) (a : Assign) : Prop :=
  match b, a with
  | BlindedSeal x, ConfidentialSeal c _ => c = df_secret D layer x
  | WitnessVout p, Revealed x _ => at_payment layer x /\ s_method x = p2v_method p /\ vout = Some (s_vout x)
  | _, _ => False
  end.

(** The invoices ask for the same of the same contract, on the same chain, until the same time, to
    the same secret seal, or to addresses with the same closing method. *)
Definition same_request (i i' : RgbInvoice) : Prop :=
  InvoiceModel.contract i = InvoiceModel.contract i' /\ InvoiceModel.iface i = InvoiceModel.iface i' /\
  InvoiceModel.operation i = InvoiceModel.operation i' /\ InvoiceModel.assignment i = InvoiceModel.assignment i' /\
  owned_state i = owned_state i' /\ expiry i = expiry i' /\
  layer1 (chain_network (beneficiary i)) = layer1 (chain_network (beneficiary i')) /\
  match xcn_into_inner (beneficiary i), xcn_into_inner (beneficiary i') with
  | BlindedSeal x, BlindedSeal x' => x = x'
  | WitnessVout p, WitnessVout p' => p2v_method p = p2v_method p'
  | _, _ => False
  end.
