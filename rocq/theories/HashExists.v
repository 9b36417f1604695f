(** Collision-free hash functions exist in the model: an injective encoding of every
    type that is hashed.  Used only to show that the hypotheses about commitments
    which theorems make can be met. *)
From Coq Require Import Cantor.
From Verif Require Import Base.
From Verif Require Export Core.

Class Enc (A : Type) := { enc : A -> N; enc_inj : forall a b, enc a = enc b -> a = b }.

Definition EncVia {A B} `{Enc B} (f : A -> B) (inj : forall a b, f a = f b -> a = b) : Enc A.
Proof. refine {| enc := fun a => enc (f a) |}. intros a b E. apply inj, enc_inj, E. Defined.

#[export] Instance EncN : Enc N := {| enc := fun n => n; enc_inj := fun a b e => e |}.

#[export] Instance EncProd {A B} `{Enc A} `{Enc B} : Enc (A * B).
Proof.
  refine {| enc := fun p => N.of_nat (to_nat (N.to_nat (enc (fst p)), N.to_nat (enc (snd p)))) |}.
  intros [a b] [a' b'] E. apply Nnat.Nat2N.inj in E.
  apply (f_equal of_nat) in E. rewrite !cancel_of_to in E.
  injection E as E1 E2. apply Nnat.N2Nat.inj in E1, E2. apply enc_inj in E1, E2.
  simpl in *. congruence.
Defined.

#[export] Instance EncBool : Enc bool.
Proof.
  refine {| enc := fun b : bool => if b then 1%N else 0%N |}. intros [] []; congruence.
Defined.

#[export] Instance EncOption {A} `{Enc A} : Enc (option A).
Proof.
  refine {| enc := fun o : option A => match o with None => 0%N | Some a => N.succ (enc a) end |}.
  intros [a|] [b|] E; try lia; [|reflexivity].
  f_equal. apply enc_inj. lia.
Defined.

Fixpoint enc_list {A} `{Enc A} (l : list A) : N :=
  match l with [] => 0%N | a :: l' => N.succ (enc (a, enc_list l')) end.
#[export] Instance EncList {A} `{Enc A} : Enc (list A).
Proof.
  refine {| enc := enc_list |}.
  intros a; induction a as [|x a IH]; intros [|y b] E; cbn [enc_list] in E; try lia; [reflexivity|].
  apply N.succ_inj, (enc_inj (x, enc_list a) (y, enc_list b)) in E. injection E as -> E.
  f_equal. apply IH, E.
Defined.

#[export] Instance EncLayer1 : Enc Layer1 := EncVia layer_key layer_key_inj.
#[export] Instance EncMethod : Enc CloseMethod := EncVia method_key method_key_inj.
#[export] Instance EncSeal : Enc Seal := EncVia seal_key seal_key_inj.

Definition rstate_key (s : RState) : N * (N * (N * N)) :=
  match s with
  | RVoid => (0, (0, (0, 0))) | RAmount a b c => (1, (a, (b, c)))
  | RData a b => (2, (a, (b, 0))) | RAttach a b => (3, (a, (b, 0)))
  end%N.
Lemma rstate_key_inj a b : rstate_key a = rstate_key b -> a = b.
Proof. destruct a, b; cbv; congruence. Qed.
#[export] Instance EncRState : Enc RState := EncVia rstate_key rstate_key_inj.

Definition assign_key (a : Assign) : option N * (option Seal * (option N * option RState)) :=
  match a with
  | Confidential s t => (Some s, (None, (Some t, None)))
  | ConfidentialState s t => (None, (Some s, (Some t, None)))
  | ConfidentialSeal s t => (Some s, (None, (None, Some t)))
  | Revealed s t => (None, (Some s, (None, Some t)))
  end.
Lemma assign_key_inj a b : assign_key a = assign_key b -> a = b.
Proof. destruct a, b; cbv; congruence. Qed.
#[export] Instance EncAssign : Enc Assign := EncVia assign_key assign_key_inj.

Definition kind_key (k : StateKind) : N :=
  match k with KDeclarative => 0 | KFungible => 1 | KStructured => 2 | KAttachment => 3 end%N.
Lemma kind_key_inj a b : kind_key a = kind_key b -> a = b.
Proof. destruct a, b; cbv; congruence. Qed.
#[export] Instance EncKind : Enc StateKind := EncVia kind_key kind_key_inj.

Definition typed_key (t : TypedAssigns) := (ta_kind t, ta_list t).
Lemma typed_key_inj a b : typed_key a = typed_key b -> a = b.
Proof. destruct a, b; cbv; congruence. Qed.
#[export] Instance EncTyped : Enc TypedAssigns := EncVia typed_key typed_key_inj.

#[export] Instance EncOpout : Enc Opout := EncVia opout_key opout_key_inj.

Definition opkind_key (k : OpKind) : N :=
  match k with OpGenesis => 0 | OpTransition => 1 | OpExtension => 2 end%N.
Lemma opkind_key_inj a b : opkind_key a = opkind_key b -> a = b.
Proof. destruct a, b; cbv; congruence. Qed.
#[export] Instance EncOpKind : Enc OpKind := EncVia opkind_key opkind_key_inj.

Definition operation_key (o : Operation) :=
  (op_kind o, (op_head o, (op_contract o, (op_ty o, (op_nonce o, (op_meta o, (op_globals o,
  (op_inputs o, (op_redeemed o, (op_assigns o, op_valencies o)))))))))).
Lemma operation_key_inj a b : operation_key a = operation_key b -> a = b.
Proof. destruct a, b; cbv; congruence. Qed.
#[export] Instance EncOperation : Enc Operation := EncVia operation_key operation_key_inj.

Definition ideal_hashes : Hashes :=
  {| h_seal := enc; h_state := enc; h_op := enc; h_bundle := fun m i => enc (m, i) |}.

Lemma ideal_collision_free : collision_free ideal_hashes.
Proof.
  split; [|split; [|split]]; [intros a b E; exact (enc_inj _ _ E) ..|].
  intros m m' i i' E. apply (enc_inj (m, i) (m', i')) in E. split; congruence.
Qed.
