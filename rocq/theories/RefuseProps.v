(** * Properties of refusals: C83 *)
From Verif Require Import Base Core IfaceModel IfaceSpec IfaceProps BuilderModel BuilderSpec BuilderProofs BuilderCalls BuilderProps
  RefuseSpec RefuseProofs.
Local Open Scope N_scope.

(** ** C83: a builder says why it refuses *)

(** A call on a transition builder fails with an error exactly when the error tells what is
    the matter with the call. *)
Theorem C83_transition X contract tt b l c e : t_built X contract tt b l ->
  t_call X b c = Err e <-> t_refused X tt l c e.
Proof. intros B. exact (t_err X contract tt b l (t_built_repr _ _ _ _ _ B) c e). Qed.
Print Assumptions C83_transition.

(** The same for contract builders. *)
Theorem C83_contract X issuer b l c e : c_built X issuer b l ->
  c_call X b c = Err e <-> c_refused X l c e.
Proof. intros B. exact (c_err X issuer b l (c_built_repr _ _ _ _ B) c e). Qed.
Print Assumptions C83_contract.

(** There is one reason. *)
Theorem C83_one_reason X contract tt b l c e e' : t_built X contract tt b l ->
  t_refused X tt l c e -> t_refused X tt l c e' -> e = e'.
Proof.
  intros B H H'. apply (C83_transition X contract tt b l c e B) in H. apply (C83_transition X contract tt b l c e' B) in H'. congruence.
Qed.
Print Assumptions C83_one_reason.

(** How a transition builder is made: of the default transition of the interface, or of the
    one which is named, and otherwise not at all. *)
Theorem C83_default X contract :
  match default_transition X contract with
  | Ok b => exists name tt, ff_default (bc_iface X) = Some name /\ type_of (fm_transitions (bc_impl X)) name = Some tt /\
      t_built X contract tt b []
  | Err e => e = NoOperationSubtype /\
      forall name tt, ff_default (bc_iface X) = Some name -> type_of (fm_transitions (bc_impl X)) name <> Some tt
  | Panic => False
  end.
Proof.
  unfold default_transition. destruct (ff_default (bc_iface X)) as [name|]; [|cbn; split; [reflexivity|discriminate]].
  destruct (type_of (fm_transitions (bc_impl X)) name) as [tt|] eqn:E; cbn.
  - exists name, tt. split; [reflexivity|]. split; [exact E|constructor].
  - split; [reflexivity|]. intros n tt [= <-]. congruence.
Qed.
Print Assumptions C83_default.
Theorem C83_named X contract name :
  match named_transition X contract name with
  | Ok b => exists tt, type_of (fm_transitions (bc_impl X)) name = Some tt /\ t_built X contract tt b []
  | Err e => e = TransitionNotFound name /\ forall tt, type_of (fm_transitions (bc_impl X)) name <> Some tt
  | Panic => False
  end.
Proof.
  unfold named_transition. destruct (type_of (fm_transitions (bc_impl X)) name) as [tt|] eqn:E; cbn.
  - exists tt. split; [reflexivity|constructor].
  - split; [reflexivity|congruence].
Qed.
Print Assumptions C83_named.
(** A blank transition has the type which stands for all types: the greatest. *)
Theorem C83_blank X contract : t_built X contract 65535 (blank_transition contract) [].
Proof. constructor. Qed.
Print Assumptions C83_blank.

(** Every reason of the list above occurs: in this builder a tag and an amount of type 10 have
    been put in, the metadata of type 3 too. *)
Example C83_nonvacuous : exists b l,
  t_calls bx (tb_new 600 20) [TAssetTag 10 77; TFungibleDefault (bx_seal 2) 40 90; TMetadata 3 (Some 1)] = Some b /\ t_built bx 600 20 b l /\
  t_call bx b (TAssetTag 10 5) = Err (AssetTagAutomatic 10) /\
  t_call bx b (TAssetTag 14 5) = Err (AssignmentNotFound 14) /\
  t_call bx b (TMetadata 3 (Some 1)) = Err (MetadataInvalid 3) /\
  t_call bx b (TMetadata 3 (Some 100)) = Err NotOfType /\
  t_call bx b (TMetadata 3 None) = Err NotSerializable /\
  t_call bx b (TMetadata 4 (Some 1)) = Err (MetadataNotFound 4) /\
  t_call bx b (TGlobal 4 (Some 1)) = Err (GlobalNotFound 4) /\
  t_call bx b (TFungible 11 (bx_seal 1) 5 1) = Err (AssetTagMissed 11) /\
  t_call bx b (TOwnedRaw 10 (bx_seal 1) (RAmount 5 1 78)) = Err (AssetTagInvalid 10) /\
  t_call bx b (TData 10 (bx_seal 1) (Some 5) 1) = Err (InvalidStateType 10) /\
  named_transition bx 600 21 = Err (TransitionNotFound 21) /\
  t_refused bx 20 l (TAssetTag 10 5) (AssetTagAutomatic 10).
Proof.
  destruct (t_calls bx (tb_new 600 20) [TAssetTag 10 77; TFungibleDefault (bx_seal 2) 40 90; TMetadata 3 (Some 1)]) as [b|] eqn:E; [|vm_compute in E; discriminate].
  destruct (t_calls_built _ _ _ _ _ _ _ (t_built_new bx 600 20) E) as [l B].
  vm_compute in E. injection E as E. rewrite <- E in *. clear E b.
  eexists. exists l. split; [reflexivity|]. split; [exact B|]. do 11 (split; [vm_compute; reflexivity|]).
  apply (C83_transition bx 600 20 _ l _ _ B). vm_compute. reflexivity.
Qed.
(** A contract for another chain than the seal's, and one whose amounts bring their tag. *)
Example C83_contract_nonvacuous : exists b l,
  c_calls bx (cb_new 5) [CGlobal 1 (Some 33); CFungible 10 (bx_seal 2) 1000 5 77] = Some b /\ c_built bx 5 b l /\
  c_call bx b (CRights 11 (BRevealed {| s_layer := Liquid; s_method := TapretFirst; s_txid := None; s_vout := 1; s_blinding := 3 |})) = Err (InvalidLayer1 Liquid) /\
  c_call bx b (CAssetTag 10 5) = Err (AssetTagAutomatic 10) /\
  c_call bx b (CFungible 11 (bx_seal 2) 1000 5 77) = Err (InvalidStateType 11) /\
  c_refused bx l (CFungible 11 (bx_seal 2) 1000 5 77) (InvalidStateType 11).
Proof.
  destruct (c_calls bx (cb_new 5) [CGlobal 1 (Some 33); CFungible 10 (bx_seal 2) 1000 5 77]) as [b|] eqn:E; [|vm_compute in E; discriminate].
  destruct (c_calls_built _ _ _ _ _ _ (c_built_new bx 5) E) as [l B].
  vm_compute in E. injection E as E. rewrite <- E in *. clear E b.
  eexists. exists l. split; [reflexivity|]. split; [exact B|]. do 3 (split; [vm_compute; reflexivity|]).
  apply (C83_contract bx 5 _ l _ _ B). vm_compute. reflexivity.
Qed.
