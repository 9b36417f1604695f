(** * Building is deterministic: C77 *)
From Verif Require Import Base Core IfaceModel BuilderModel BuilderSpec BuilderProofs BuilderCalls BuilderComplete BuilderProps DetSpec DetProofs.
Local Open Scope N_scope.

(** Two builders of a transition which hold the same content complete to the same transition,
    or fail in the same way, whatever the order of the calls was and whatever they were;
    [order] and [order'] are the orders in which hash sets list the rights of a type.
    Partial: the rights of a type may be in another order (so another id of the operation). *)
Theorem C77_transition_partial X P order order' contract tt b b' l l' :
  (forall s, Permutation (order s) s) -> (forall s, Permutation (order' s) s) ->
  t_built X contract tt b l -> t_built X contract tt b' l' -> same_content l l' ->
  same_result same_but_rights (complete_transition P order b) (complete_transition P order' b').
Proof.
  intros Ho Ho' B B' S. pose proof (t_built_repr _ _ _ _ _ B) as R. pose proof (t_built_repr _ _ _ _ _ B') as R'.
  destruct (rt_inputs _ _ _ _ _ R) as [Si Gi]. destruct (rt_inputs _ _ _ _ _ R') as [Si' Gi'].
  assert (Ei : tb_inputs b' = tb_inputs b) by (apply msorted_ext; [exact Si'|exact Si|]; intros o; rewrite Gi, Gi'; symmetry; apply (sc_ins _ _ S)).
  unfold complete_transition. rewrite Ei.
  assert (Ec : complete P order' (tb_inputs b) (tb_builder b') = complete P order' (tb_inputs b) (tb_builder b)).
  { unfold complete. rewrite (fungible_same X _ _ l l' (rt_op _ _ _ _ _ R) (rt_op _ _ _ _ _ R') (sc_owned _ _ S)),
      (data_same X _ _ l l' (rt_op _ _ _ _ _ R) (rt_op _ _ _ _ _ R') (sc_owned _ _ S)),
      (rights_same X _ _ l l' (rt_op _ _ _ _ _ R) (rt_op _ _ _ _ _ R') (sc_owned _ _ S)),
      (attach_same X _ _ l l' (rt_op _ _ _ _ _ R) (rt_op _ _ _ _ _ R') (sc_owned _ _ S)). reflexivity. }
  rewrite Ec. eapply same_bind; [apply complete_perm; assumption|]. intros a a' Ha. cbn. split; [exact Ha|]. cbn.
  rewrite (rt_contract _ _ _ _ _ R), (rt_contract _ _ _ _ _ R'), (rt_type _ _ _ _ _ R), (rt_type _ _ _ _ _ R'), (rt_nonce _ _ _ _ _ R), (rt_nonce _ _ _ _ _ R'),
    (sc_nonce _ _ S), (global_same X _ _ l l' (rt_op _ _ _ _ _ R) (rt_op _ _ _ _ _ R') (sc_globals _ _ S)). reflexivity.
Qed.
Print Assumptions C77_transition_partial.

(** When no type has rights on two seals, it is exactly the same transition. *)
Theorem C77_one_right_partial X P order order' contract tt b b' l l' :
  (forall s, Permutation (order s) s) -> (forall s, Permutation (order' s) s) ->
  t_built X contract tt b l -> t_built X contract tt b' l' -> same_content l l' -> one_right l ->
  complete_transition P order b = complete_transition P order' b'.
Proof.
  intros Ho Ho' B B' S O. pose proof (t_built_repr _ _ _ _ _ B) as R. pose proof (t_built_repr _ _ _ _ _ B') as R'.
  destruct (rt_inputs _ _ _ _ _ R) as [Si Gi]. destruct (rt_inputs _ _ _ _ _ R') as [Si' Gi'].
  assert (Ei : tb_inputs b' = tb_inputs b) by (apply msorted_ext; [exact Si'|exact Si|]; intros o; rewrite Gi, Gi'; symmetry; apply (sc_ins _ _ S)).
  unfold complete_transition. rewrite Ei.
  rewrite (complete_single X _ _ l l' (rt_op _ _ _ _ _ R) (rt_op _ _ _ _ _ R') (sc_owned _ _ S) P order order' (tb_inputs b) Ho Ho' O).
  rewrite (rt_contract _ _ _ _ _ R), (rt_contract _ _ _ _ _ R'), (rt_type _ _ _ _ _ R), (rt_type _ _ _ _ _ R'), (rt_nonce _ _ _ _ _ R), (rt_nonce _ _ _ _ _ R'),
    (sc_nonce _ _ S), (global_same X _ _ l l' (rt_op _ _ _ _ _ R) (rt_op _ _ _ _ _ R') (sc_globals _ _ S)). reflexivity.
Qed.
Print Assumptions C77_one_right_partial.

(** The same for contracts: the same genesis, so the same contract id. *)
Theorem C77_contract_partial X P order order' head_no schema_id valid ts issuer b b' l l' :
  (forall s, Permutation (order s) s) -> (forall s, Permutation (order' s) s) ->
  c_built X issuer b l -> c_built X issuer b' l' -> same_contract l l' -> one_right l ->
  issue_contract P order head_no schema_id valid ts b = issue_contract P order' head_no schema_id valid ts b'.
Proof.
  intros Ho Ho' B B' S O. pose proof (c_built_repr _ _ _ _ B) as R. pose proof (c_built_repr _ _ _ _ B') as R'.
  pose proof (sk_content _ _ S) as C. unfold issue_contract.
  rewrite (complete_single X _ _ l l' (rc_op _ _ _ _ R) (rc_op _ _ _ _ R') (sc_owned _ _ C) P order order' [] Ho Ho' O).
  rewrite (rc_issuer _ _ _ _ R), (rc_issuer _ _ _ _ R'), (tags_same X _ _ l l' (rc_op _ _ _ _ R) (rc_op _ _ _ _ R') (sk_tags _ _ S)),
    (global_same X _ _ l l' (rc_op _ _ _ _ R) (rc_op _ _ _ _ R') (sc_globals _ _ C)).
  replace (cb_testnet b') with (cb_testnet b); [replace (cb_liquid b') with (cb_liquid b); [reflexivity|]|].
  - apply eq_true_iff_eq. rewrite (rc_liquid _ _ _ _ R), (rc_liquid _ _ _ _ R'). apply (sk_liquid _ _ S).
  - apply eq_true_iff_eq. rewrite (rc_testnet _ _ _ _ R), (rc_testnet _ _ _ _ R'), (sk_mainnet _ _ S). reflexivity.
Qed.
Print Assumptions C77_contract_partial.

(** Calls in another order hold the same content, when none replaces what another one put in
    and the values of each type of global state stay in order. *)
Theorem C77_reordered_partial l l' : reordered l l' -> same_contract l l'.
Proof. apply reordered_same. Qed.
Print Assumptions C77_reordered_partial.

(** The same deterministic calls made again give the same builder, or the same failure, and
    the same contract, whatever is drawn at random meanwhile.
    Partial: the tag of an asset must be given before its amounts, and no type has rights on
    two seals. *)
Theorem C77_again_partial X P order order' head_no schema_id valid ts issuer cs cs' :
  (forall s, Permutation (order s) s) -> (forall s, Permutation (order' s) s) ->
  Forall2 called_again cs cs' -> tags_first X cs ->
  c_run X (cb_new issuer) cs = c_run X (cb_new issuer) cs' /\
  forall b l, c_run X (cb_new issuer) cs = Ok b -> c_built X issuer b l -> one_right l ->
    issue_contract P order head_no schema_id valid ts b = issue_contract P order' head_no schema_id valid ts b.
Proof.
  intros Ho Ho' Hc Ht. split.
  - eapply again_same_result; [exact Hc|apply c_built_new|]. intros before name s v bl tag after E. right. right. exact (Ht before name s v bl tag after E).
  - intros b l _ B O. eapply C77_contract_partial; eauto. repeat constructor; auto.
Qed.
Print Assumptions C77_again_partial.

(** Every successful run is such a builder. *)
Theorem C77_runs X issuer cs : forall b l b', c_built X issuer b l -> c_run X b cs = Ok b' -> exists l', c_built X issuer b' (l ++ l').
Proof.
  induction cs as [|c cs IH]; intros b l b' B H; [injection H as <-; exists []; rewrite app_nil_r; exact B|].
  cbn in H. apply rbind_ok in H as (b1 & E & H). destruct (c_step X issuer b l c b1 (c_built_repr _ _ _ _ B) E) as (new & Hn & _ & _).
  destruct (IH b1 (l ++ new) b' (c_built_call X issuer b l c b1 new B E Hn) H) as (l' & B'). exists (new ++ l'). rewrite app_assoc. exact B'.
Qed.
Print Assumptions C77_runs.

(** *** Examples *)
Definition dx_issue (t1 t2 : N) : list CCall :=
  [CLiquid; CAssetTag 10 77; CGlobal 1 (Some 33); CFungibleDet 10 (bx_seal 2) 1000 5 t1; CFungibleDet 10 (bx_seal 1) 500 6 t2; CRights 11 (BConcealed 8);
   CDataDet 12 (bx_seal 1) 6 4; CAttachmentDet 13 (bx_seal 0) 9 9].
Example C77_again_nonvacuous : exists b,
  Forall2 called_again (dx_issue 1 2) (dx_issue 3 4) /\ tags_first bx (dx_issue 1 2) /\
  c_run bx (cb_new 9) (dx_issue 1 2) = Ok b /\ c_run bx (cb_new 9) (dx_issue 3 4) = Ok b /\
  is_ok (issue_contract bx_pedersen (fun s => s) (fun _ => 0) 50 (fun _ _ => true) 100%Z b) = true.
Proof.
  eexists. split; [|split; [|split; [vm_compute; reflexivity|split; vm_compute; reflexivity]]].
  - repeat constructor.
  - intros before name s v bl tag after E. exists 10, 77. unfold dx_issue in E.
    destruct before as [|c0 before]; [discriminate|]. injection E as <- E.
    destruct before as [|c1 before]; [discriminate|]. injection E as <- E. split; [right; left; reflexivity|].
    destruct before as [|c2 before]; [discriminate|]. injection E as <- E.
    destruct before as [|c3 before]; [injection E as <- _ _ _ _ _; reflexivity|]. injection E as <- E.
    destruct before as [|c4 before]; [injection E as <- _ _ _ _ _; reflexivity|]. injection E as <- E.
    do 3 (destruct before as [|? before]; [discriminate|]; injection E as <- E). destruct before; discriminate.
Qed.

Definition dx_items : list Item := [ItTag 10 77; ItOwn 10 (bx_seal 1) (RAmount 5 1 77); ItIn (bx_in 10 0) (RAmount 5 4 77); ItOwn 11 (bx_seal 2) RVoid; ItGlobal 1 33; ItNonce 4].
Definition dx_items' : list Item := [ItNonce 4; ItGlobal 1 33; ItOwn 11 (bx_seal 2) RVoid; ItTag 10 77; ItIn (bx_in 10 0) (RAmount 5 4 77); ItOwn 10 (bx_seal 1) (RAmount 5 1 77)].
Example C77_nonvacuous : exists b b', t_built bx 600 20 b dx_items /\ t_built bx 600 20 b' dx_items' /\ reordered dx_items dx_items' /\ one_right dx_items /\
  is_ok (complete_transition bx_pedersen (fun s => s) b) = true.
Proof.
  pose proof (t_built_call bx 600 20 _ [] (TAssetTag 10 77) _ _ (t_built_new _ _ _) eq_refl (ask_tag bx 20 _ 10 10 77 eq_refl)) as B1.
  pose proof (t_built_call bx 600 20 _ _ (TFungible 10 (bx_seal 1) 5 1) _ _ B1 eq_refl (ask_fungible bx 20 (firstn 1 dx_items) 10 10 (bx_seal 1) 5 1 77 eq_refl eq_refl)) as B2.
  pose proof (t_built_call bx 600 20 _ _ (TInput (bx_in 10 0) (RAmount 5 4 77)) _ _ B2 eq_refl (ask_input bx 20 _ _ _)) as B3.
  pose proof (t_built_call bx 600 20 _ _ (TRights 11 (bx_seal 2)) _ _ B3 eq_refl (ask_rights bx 20 _ 11 11 (bx_seal 2) eq_refl)) as B4.
  pose proof (t_built_call bx 600 20 _ _ (TGlobal 1 (Some 33)) _ _ B4 eq_refl (ask_global bx 20 _ 1 1 33 eq_refl)) as B5.
  pose proof (t_built_call bx 600 20 _ _ (TSetNonce 4) _ _ B5 eq_refl (ask_nonce bx 20 _ 4)) as B6.
  pose proof (t_built_call bx 600 20 _ [] (TSetNonce 4) _ _ (t_built_new _ _ _) eq_refl (ask_nonce bx 20 _ 4)) as D1.
  pose proof (t_built_call bx 600 20 _ _ (TGlobal 1 (Some 33)) _ _ D1 eq_refl (ask_global bx 20 _ 1 1 33 eq_refl)) as D2.
  pose proof (t_built_call bx 600 20 _ _ (TRights 11 (bx_seal 2)) _ _ D2 eq_refl (ask_rights bx 20 _ 11 11 (bx_seal 2) eq_refl)) as D3.
  pose proof (t_built_call bx 600 20 _ _ (TAssetTag 10 77) _ _ D3 eq_refl (ask_tag bx 20 _ 10 10 77 eq_refl)) as D4.
  pose proof (t_built_call bx 600 20 _ _ (TInput (bx_in 10 0) (RAmount 5 4 77)) _ _ D4 eq_refl (ask_input bx 20 _ _ _)) as D5.
  pose proof (t_built_call bx 600 20 _ _ (TFungible 10 (bx_seal 1) 5 1) _ _ D5 eq_refl (ask_fungible bx 20 (firstn 5 dx_items') 10 10 (bx_seal 1) 5 1 77 eq_refl eq_refl)) as D6.
  eexists. eexists. split; [exact B6|]. split; [exact D6|]. split; [|split].
  - constructor.
    + apply NoDup_Permutation; [repeat (constructor; [cbn; intuition discriminate|]); constructor..|]. intros i. cbn. tauto.
    + intros ty. reflexivity.
    + repeat (constructor; [cbn; intuition discriminate|]). constructor.
    + repeat (constructor; [cbn; intuition discriminate|]). constructor.
    + repeat (constructor; [cbn; intuition discriminate|]). constructor.
    + intros l1 n l2 E m Hi. do 5 (destruct l1 as [|? l1]; [discriminate|]; injection E as <- E).
      destruct l1 as [|? l1]; [|injection E as <- E; destruct l1; discriminate]. injection E as <- <-. cbn in Hi. intuition discriminate.
  - intros ty s s' Hs Hs'. unfold dx_items in Hs, Hs'. cbn [owned filter_map] in Hs, Hs'. apply latest_In in Hs. apply latest_In in Hs'. cbn [In] in Hs, Hs'.
    destruct Hs as [E|[E|[]]]; [discriminate|]. destruct Hs' as [E'|[E'|[]]]; [discriminate|]. congruence.
  - vm_compute. reflexivity.
Qed.

(** ** What is not deterministic *)

(** Rights of one type on two seals: their order is that of a hash set, so the same builder
    may issue two different contracts. *)
Theorem C77_rights_refuted :
  ~ (forall X P order order' head_no schema_id valid ts issuer b l,
       (forall s, Permutation (order s) s) -> (forall s, Permutation (order' s) s) -> c_built X issuer b l ->
       issue_contract P order head_no schema_id valid ts b = issue_contract P order' head_no schema_id valid ts b).
Proof.
  intros H.
  pose proof (c_built_call bx 9 _ [] (CRights 11 (bx_seal 1)) _ _ (c_built_new _ _) eq_refl (cask_rights bx _ 11 11 (bx_seal 1) Logic.I eq_refl)) as B1.
  pose proof (c_built_call bx 9 _ _ (CRights 11 (bx_seal 2)) _ _ B1 eq_refl (cask_rights bx _ 11 11 (bx_seal 2) Logic.I eq_refl)) as B2.
  pose proof (H bx bx_pedersen (fun s => s) (@rev BSeal) (fun _ => 0) 50 (fun _ _ => true) 100%Z 9 _ _ (fun s => Permutation_refl s)
                (fun s => Permutation_sym (Permutation_rev s)) B2) as E.
  vm_compute in E. discriminate E.
Qed.
Print Assumptions C77_rights_refuted.

(** An amount without a tag for its type: the deterministic method draws a tag at random, so
    the same deterministic calls issue two different contracts. *)
Theorem C77_tag_refuted :
  ~ (forall X P head_no schema_id valid ts issuer cs cs' b b', Forall2 called_again cs cs' ->
       c_run X (cb_new issuer) cs = Ok b -> c_run X (cb_new issuer) cs' = Ok b' ->
       issue_contract P (fun s => s) head_no schema_id valid ts b = issue_contract P (fun s => s) head_no schema_id valid ts b').
Proof.
  intros H.
  pose proof (H bx bx_pedersen (fun _ => 0) 50 (fun _ _ => true) 100%Z 9 [CFungibleDet 10 (bx_seal 1) 500 6 77] [CFungibleDet 10 (bx_seal 1) 500 6 78] _ _
    (Forall2_cons _ _ (again_amount 10 (bx_seal 1) 500 6 77 78) (Forall2_nil _)) eq_refl eq_refl) as E.
  vm_compute in E. discriminate E.
Qed.
Print Assumptions C77_tag_refuted.
