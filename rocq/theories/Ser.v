(** * Self-delimiting encodings, and commitments which can be computed

    Used for examples only: the theorems are about any commitments and any encodings of
    files. *)
From Verif Require Import Base Core.

Class Ser (A : Type) := {
  ser : A -> list N;
  par : list N -> option (A * list N);
  par_ser : forall a r, par (ser a ++ r) = Some (a, r);
  par_more : forall l a r m, par l = Some (a, r) -> par (l ++ m) = Some (a, r ++ m)
}.

#[export] Instance SerN : Ser N.
Proof.
  refine {| ser := fun n => [n]; par := fun l => match l with [] => None | n :: r => Some (n, r) end |}.
  - reflexivity.
  - intros [|n l] a r m E; [discriminate|]. injection E as <- <-. reflexivity.
Defined.

#[export] Instance SerProd {A B} `{Ser A} `{Ser B} : Ser (A * B).
Proof.
  refine {| ser := fun p => ser (fst p) ++ ser (snd p);
            par := fun l => match par l with
                            | None => None
                            | Some (a, r) => match par r with
                                             | None => None
                                             | Some (b, r') => Some ((a, b), r')
                                             end
                            end |}.
  - intros [a b] r. simpl. rewrite <- app_assoc, par_ser, par_ser. reflexivity.
  - intros l [a b] r m E. destruct (par l) as [[a' r1]|] eqn:E1; [|discriminate].
    rewrite (par_more _ _ _ m E1). destruct (par r1) as [[b' r2]|] eqn:E2; [|discriminate].
    rewrite (par_more _ _ _ m E2). injection E as -> -> ->. reflexivity.
Defined.

Definition SerVia {A B} `{Ser B} (f : A -> B) (g : B -> option A) (gf : forall a, g (f a) = Some a) : Ser A.
Proof.
  refine {| ser := fun a => ser (f a);
            par := fun l => match par l with
                            | None => None
                            | Some (b, r) => match g b with Some a => Some (a, r) | None => None end
                            end |}.
  - intros a r. rewrite par_ser, gf. reflexivity.
  - intros l a r m E. destruct (par l) as [[b r1]|] eqn:E1; [|discriminate].
    rewrite (par_more _ _ _ m E1). destruct (g b); [|discriminate]. injection E as -> ->. reflexivity.
Defined.

Fixpoint par_items {A} `{Ser A} (n : nat) (l : list N) : option (list A * list N) :=
  match n with
  | O => Some ([], l)
  | S n' => match par l with
            | None => None
            | Some (a, r) => match par_items n' r with
                             | None => None
                             | Some (as_, r') => Some (a :: as_, r')
                             end
            end
  end.
#[export] Instance SerList {A} `{Ser A} : Ser (list A).
Proof.
  refine {| ser := fun l => N.of_nat (length l) :: flat_map ser l;
            par := fun l => match l with [] => None | n :: r => par_items (N.to_nat n) r end |}.
  - intros a r. simpl. rewrite Nnat.Nat2N.id. induction a as [|x a IH]; [reflexivity|].
    simpl. rewrite <- app_assoc, par_ser, IH. reflexivity.
  - intros [|n l] a r m E; [discriminate|]. simpl. revert l a r E.
    induction (N.to_nat n) as [|k IH]; intros l a r E; simpl in *.
    + injection E as <- <-. reflexivity.
    + destruct (par l) as [[x r1]|] eqn:E1; [|discriminate]. rewrite (par_more _ _ _ m E1).
      destruct (par_items k r1) as [[xs r2]|] eqn:E2; [|discriminate].
      rewrite (IH _ _ _ E2). injection E as <- <-. reflexivity.
Defined.

#[export] Instance SerOption {A} `{Ser A} : Ser (option A) :=
  SerVia (fun o => match o with None => [] | Some a => [a] end)
         (fun l => match l with [] => Some None | a :: _ => Some (Some a) end)
         (fun o => match o with None => eq_refl | Some _ => eq_refl end).

Ltac via f g :=
  refine (SerVia f g _); intros x; destruct x; reflexivity.

#[export] Instance SerLayer : Ser Layer1.
Proof.
  via (fun a : Layer1 => match a with Bitcoin => 0 | Liquid => 1 end%N)
      (fun n => match n with 0 => Some Bitcoin | _ => Some Liquid end%N).
Defined.
#[export] Instance SerMethod : Ser CloseMethod.
Proof.
  via (fun a : CloseMethod => match a with OpretFirst => 0 | TapretFirst => 1 end%N)
      (fun n => match n with 0 => Some OpretFirst | _ => Some TapretFirst end%N).
Defined.
#[export] Instance SerSeal : Ser Seal.
Proof.
  via (fun a : Seal => (s_layer a, (s_method a, (s_txid a, (s_vout a, s_blinding a)))))
      (fun t : Layer1 * (CloseMethod * (option N * (N * N))) => let '(a, (b, (c, (d, e)))) := t in
         Some {| s_layer := a; s_method := b; s_txid := c; s_vout := d; s_blinding := e |}).
Defined.
#[export] Instance SerWitnessId : Ser WitnessId.
Proof.
  via (fun a : WitnessId => (w_layer a, w_txid a))
      (fun t : Layer1 * N => Some {| w_layer := fst t; w_txid := snd t |}).
Defined.
#[export] Instance SerOutSeal : Ser OutSeal.
Proof.
  via (fun a : OutSeal => (os_layer a, (os_method a, (os_txid a, os_vout a))))
      (fun t : Layer1 * (CloseMethod * (N * N)) => let '(a, (b, (c, d))) := t in
         Some {| os_layer := a; os_method := b; os_txid := c; os_vout := d |}).
Defined.
#[export] Instance SerRState : Ser RState.
Proof.
  via (fun s : RState => match s with
         | RVoid => (0, (0, (0, 0))) | RAmount a b c => (1, (a, (b, c)))
         | RData a b => (2, (a, (b, 0))) | RAttach a b => (3, (a, (b, 0))) end%N)
      (fun t : N * (N * (N * N)) => let '(k, (a, (b, c))) := t in
         match k with 0 => Some RVoid | 1 => Some (RAmount a b c) | 2 => Some (RData a b)
         | _ => Some (RAttach a b) end%N).
Defined.
#[export] Instance SerAssign : Ser Assign.
Proof.
  via (fun a : Assign => match a with
         | Confidential s t => (Some s, (None, (Some t, None)))
         | ConfidentialState s t => (None, (Some s, (Some t, None)))
         | ConfidentialSeal s t => (Some s, (None, (None, Some t)))
         | Revealed s t => (None, (Some s, (None, Some t))) end)
      (fun t : option N * (option Seal * (option N * option RState)) => match t with
         | (Some s, (_, (Some t, _))) => Some (Confidential s t)
         | (None, (Some s, (Some t, _))) => Some (ConfidentialState s t)
         | (Some s, (_, (None, Some t))) => Some (ConfidentialSeal s t)
         | (None, (Some s, (None, Some t))) => Some (Revealed s t)
         | _ => None end).
Defined.
#[export] Instance SerKind : Ser StateKind.
Proof.
  via (fun k : StateKind => match k with KDeclarative => 0 | KFungible => 1 | KStructured => 2 | KAttachment => 3 end%N)
      (fun n => match n with 0 => Some KDeclarative | 1 => Some KFungible | 2 => Some KStructured
                | _ => Some KAttachment end%N).
Defined.
#[export] Instance SerTyped : Ser TypedAssigns.
Proof.
  via (fun a : TypedAssigns => (ta_kind a, ta_list a))
      (fun t : StateKind * list Assign => Some {| ta_kind := fst t; ta_list := snd t |}).
Defined.
#[export] Instance SerOpout : Ser Opout.
Proof.
  via (fun a : Opout => (oo_op a, (oo_ty a, oo_no a)))
      (fun t : N * (N * N) => let '(a, (b, c)) := t in Some {| oo_op := a; oo_ty := b; oo_no := c |}).
Defined.
#[export] Instance SerOpKind : Ser OpKind.
Proof.
  via (fun k : OpKind => match k with OpGenesis => 0 | OpTransition => 1 | OpExtension => 2 end%N)
      (fun n => match n with 0 => Some OpGenesis | 1 => Some OpTransition | _ => Some OpExtension end%N).
Defined.
#[export] Instance SerMap {K V} `{Ser K} `{Ser V} : Ser (omap K V) := SerList.
#[export] Instance SerSet {K} `{Ser K} : Ser (oset K) := SerList.
#[export] Instance SerOperation : Ser Operation.
Proof.
  via (fun o : Operation => (op_kind o, (op_head o, (op_contract o, (op_ty o, (op_nonce o, (op_meta o,
         (op_globals o, (op_inputs o, (op_redeemed o, (op_assigns o : omap N TypedAssigns, op_valencies o)))))))))))
      (fun t : OpKind * (N * (N * (N * (N * (omap N N * (omap N (list N) * (oset Opout * (omap N N *
               (omap N TypedAssigns * oset N))))))))) =>
         let '(a, (b, (c, (d, (e, (f, (g, (h, (i, (j, k)))))))))) := t in
         Some {| op_kind := a; op_head := b; op_contract := c; op_ty := d; op_nonce := e; op_meta := f;
                 op_globals := g; op_inputs := h; op_redeemed := i; op_assigns := j; op_valencies := k |}).
Defined.
#[export] Instance SerBundle : Ser Bundle.
Proof.
  via (fun b : Bundle => (b_method b, (b_inputs b, b_known b)))
      (fun t : CloseMethod * (omap N N * omap N Operation) => let '(a, (b, c)) := t in
         Some {| b_method := a; b_inputs := b; b_known := c |}).
Defined.

(** ** Commitments *)

(** The encoding as one number, two bits per symbol *)
Fixpoint pk_pos (p acc : positive) : positive :=
  match p with
  | xH => acc~0~1
  | xO q => (pk_pos q acc)~1~0
  | xI q => (pk_pos q acc)~1~1
  end.
Definition pk_N (n : N) (acc : positive) : positive :=
  match n with N0 => acc~0~0 | Npos p => pk_pos p acc end.
Fixpoint pk (l : list N) : positive :=
  match l with [] => xH | n :: l' => pk_N n (pk l') end.

Lemma pk_pos_inj p q a b : pk_pos p a = pk_pos q b -> p = q /\ a = b.
Proof.
  revert q; induction p as [p IH|p IH|]; intros [q|q|]; cbn; intros E; try discriminate E;
    injection E as E; [apply IH in E as [-> ->]; auto|apply IH in E as [-> ->]; auto|auto].
Qed.
Lemma pk_N_inj n m a b : pk_N n a = pk_N m b -> n = m /\ a = b.
Proof.
  destruct n as [|p], m as [|q]; cbn; intros E.
  - injection E as E. auto.
  - exfalso. destruct q; discriminate.
  - exfalso. destruct p; discriminate.
  - apply pk_pos_inj in E as [-> ->]. auto.
Qed.
Lemma pk_N_not_xH n a : pk_N n a <> xH.
Proof. destruct n as [|[]]; discriminate. Qed.
Lemma pk_inj l m : pk l = pk m -> l = m.
Proof.
  revert m; induction l as [|n l IH]; intros [|k m]; cbn; intros E.
  - reflexivity.
  - symmetry in E. apply pk_N_not_xH in E. destruct E.
  - apply pk_N_not_xH in E. destruct E.
  - apply pk_N_inj in E as [-> E]. f_equal. apply IH, E.
Qed.

Lemma ser_inj {A} `{Ser A} (a b : A) : ser a = ser b -> a = b.
Proof.
  intros E. pose proof (par_ser a []) as Pa. rewrite E, par_ser in Pa. injection Pa as Pa. symmetry. exact Pa.
Qed.

Definition bit_hash {A} `{Ser A} (a : A) : N := Npos (pk (ser a)).
Lemma bit_hash_inj {A} `{Ser A} (a b : A) : bit_hash a = bit_hash b -> a = b.
Proof. unfold bit_hash. intros E. injection E as E. apply ser_inj, pk_inj, E. Qed.

Definition bit_hashes : Hashes :=
  {| h_seal := bit_hash; h_state := bit_hash; h_op := bit_hash; h_bundle := fun m i => bit_hash (m, i) |}.
Theorem bit_collision_free : collision_free bit_hashes.
Proof.
  split; [intros a b E; exact (bit_hash_inj a b E)|]. split; [intros a b E; exact (bit_hash_inj a b E)|].
  split; [intros a b E; exact (bit_hash_inj a b E)|]. intros m m' i i' E. apply (bit_hash_inj (m, i) (m', i')) in E. injection E as -> ->. auto.
Qed.
