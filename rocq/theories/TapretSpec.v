(** * C87: the commitments which a wallet has to know are listed *)
From Verif Require Import Base StM Core ContainerModel ContainerSpec StashModel StockModel ConsignSpec AcceptSpec.
Local Open Scope N_scope.

(** A call says of the witness [w] that its transaction has a commitment of the method [m]
    with the given root and proof. *)
Definition announces (H : Hashes) (K : Merkle) (x : StockCall) (w : WitnessId) (m : CloseMethod) (root proof : N) : Prop :=
  match x with
  | SkAccept c _ =>
      (* the consignment has, under the witness, a bundle with an anchor *)
      exists a b, holds c w a b /\ dp_method (ea_dbc a) = m /\ dp_data (ea_dbc a) = proof /\
        mk_with K (ea_mpc a) (contract_id H (c_genesis c)) (bundle_id H b) = Some root
  | SkFascia f _ =>
      fascia_witness_id f = w /\
      exists an, anchor_under m (fa_anchor f) = Some an /\ an_root an = root /\ an_dbc an = proof
  | _ => False
  end.
