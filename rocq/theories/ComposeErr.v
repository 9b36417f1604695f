(** * Proofs about composing payments: totals, and when there is too little *)
From Verif Require Import Base Core InvoiceModel SupplModel ContainerModel PIndexModel StateModel StashModel StockModel ConsignModel IfaceModel
  BuilderModel BuilderSpec BuilderProofs BuilderCalls BuilderComplete BuilderProps ComposeModel ComposeSpec ComposeProofs ComposeMain ComposePaid ComposeBlank.
Local Open Scope N_scope.

(** ** Errors other than too little state *)
Definition NI {A} (r : result ComposeError A) : Prop := r <> Err InsufficientState.
Lemma ni_bind {A B} (r : result ComposeError A) (k : A -> result ComposeError B) : NI r -> (forall a, r = Ok a -> NI (k a)) -> NI (rbind r k).
Proof. unfold NI. destruct r; cbn; [intros _ Hk; apply Hk; reflexivity|congruence|congruence]. Qed.
Lemma ni_ok {A} (a : A) : NI (Ok a).
Proof. discriminate. Qed.
Lemma ni_rfold {A B} (f : B -> A -> result ComposeError B) l : (forall b x, NI (f b x)) -> forall b, NI (rfold f b l).
Proof. intros Hf. induction l as [|x l IH]; intros b; [apply ni_ok|]. cbn [rfold]. apply ni_bind; [apply Hf|]. intros b' _. apply IH. Qed.
Lemma ni_co_stash {A} (r : result StashError A) : NI (co_stash r).
Proof. destruct r; discriminate. Qed.
Lemma ni_co_state {A} (r : result StateError A) : NI (co_state r).
Proof. destruct r; discriminate. Qed.
Lemma ni_co_extract {A} (r : result ConsignError A) : NI (co_extract r).
Proof. destruct r; discriminate. Qed.
Lemma ni_co_builder {A} (r : result BuilderError A) : NI (co_builder r).
Proof. destruct r; discriminate. Qed.
Lemma ni_ok_or {A} e (o : option A) : e <> InsufficientState -> NI (ok_or e o).
Proof. unfold NI. destruct o; cbn; congruence. Qed.

Ltac ni := repeat first
  [ apply ni_ok | apply ni_co_stash | apply ni_co_state | apply ni_co_extract | apply ni_co_builder | apply ni_ok_or; discriminate
  | apply ni_bind; [|intros ? _] | apply ni_rfold; intros ? ?
  | match goal with |- NI (match ?x with _ => _ end) => destruct x end
  | match goal with |- NI (let (_, _) := ?x in _) => destruct x end
  | discriminate ].

Lemma ni_add_tags X b tags : NI (add_tags X b tags).
Proof. unfold add_tags. ni. Qed.
Lemma ni_transition_builder D s cid iface name : NI (transition_builder D s cid iface name).
Proof. unfold transition_builder. ni; apply ni_add_tags. Qed.
Lemma ni_blank_builder D s cid iface : NI (blank_builder D s cid iface).
Proof. unfold blank_builder. ni; apply ni_add_tags. Qed.
Lemma ni_caf s cid outs : NI (contract_assignments_for s cid outs).
Proof. unfold contract_assignments_for. ni. Qed.
Lemma ni_output D s ch u method layer cid ty : NI (output_for D s ch u method layer cid ty).
Proof. unfold output_for. cbv zeta. ni. Qed.
Lemma ni_wk_call X main c w : NI (wk_call X main c w).
Proof. unfold wk_call. ni. Qed.
Lemma ni_add64 wrap a b : NI (add64 wrap a b).
Proof. unfold add64. ni. Qed.
Lemma ni_sub64 wrap a b : NI (sub64 wrap a b).
Proof. unfold sub64. ni. Qed.
Lemma ni_spend D wrap s ch X method layer cid a lookup w p : NI (spend D wrap s ch X method layer cid a lookup w p).
Proof. unfold spend. cbv zeta. ni; first [apply ni_wk_call|apply ni_output|apply ni_add64|idtac]. Qed.
Lemma ni_finish H P od b outs : NI (finish H P od b outs).
Proof. unfold finish. ni. Qed.
Lemma ni_spent_state s cid outs : NI (spent_state s cid outs).
Proof. unfold spent_state. ni; apply ni_caf. Qed.
Lemma ni_blank_spend D s ch X method layer id w p : NI (blank_spend D s ch X method layer id w p).
Proof. unfold blank_spend. cbv zeta. ni; apply ni_output. Qed.
Lemma ni_di_from {A} (l : list A) : NI (di_from_iter l).
Proof. unfold di_from_iter. ni. Qed.
Lemma ni_blank_for H D P s ch od method layer iface p : NI (blank_for H D P s ch od method layer iface p).
Proof.
  destruct p as [id m]. unfold blank_for. apply ni_bind; [apply ni_blank_builder|intros tb _]. apply ni_bind; [apply ni_blank_builder|intros ob _].
  apply ni_bind; [apply ni_rfold; intros; apply ni_blank_spend|intros w _]. apply ni_bind; [|intros infos _; apply ni_di_from].
  apply ni_rfold. intros acc [b outs]. destruct (has_inputs b); [|apply ni_ok]. apply ni_bind; [apply ni_finish|intros i _; apply ni_ok].
Qed.
Lemma ni_blanks_for H D P s ch od method layer iface m : NI (blanks_for H D P s ch od method layer iface m).
Proof. unfold blanks_for. ni; apply ni_blank_for. Qed.
Lemma ni_beneficiary D ch layer cid a b vout : NI (beneficiary_seal D ch layer cid a b vout).
Proof. unfold beneficiary_seal. ni. Qed.
Lemma ni_payment_type D X b assignment : NI (payment_type D X b assignment).
Proof. unfold payment_type. ni. Qed.

Lemma bind_err {A B} (r : result ComposeError A) (k : A -> result ComposeError B) : NI r -> rbind r k = Err InsufficientState -> exists a, r = Ok a /\ k a = Err InsufficientState.
Proof. unfold NI. destruct r; cbn; [eauto|congruence|discriminate]. Qed.

Section Err.
Context (H : Hashes) (D : Defs) (P : Pedersen) (wrap : bool) (s : Stock) (ch : Choices) (od : Orders).

Lemma compose_insufficient inv prev method vout priority now cid tt a l amt :
  orders_ok od -> owned_state inv = ISAmount amt -> asks D s inv cid tt a -> spent s cid prev l -> no_wrap wrap a l ->
  compose H D P wrap s ch od inv prev method vout priority now = Err InsufficientState -> total a l < amt \/ l = [].
Proof.
  intros Ho Hst Ha Hsp Hw E. unfold compose in E. cbv zeta in E. set (layer := layer1 (chain_network (beneficiary inv))) in *.
  destruct (match expiry inv with Some t => (t <? now)%Z | None => false end); [discriminate|].
  apply bind_err in E as (cid' & Ec & E); [|apply ni_ok_or; discriminate]. apply ok_or_ok in Ec.
  apply bind_err in E as (iface & Ei & E); [|destruct (InvoiceModel.iface inv); discriminate]. apply rmap_ok in Ei as (iface0 & Ei & ->). apply ok_or_ok in Ei.
  apply bind_err in E as ([X b] & Eb & E); [|apply ni_transition_builder]. cbn [fst snd] in E.
  apply bind_err in E as (a' & Ea & E); [|apply ni_payment_type]. rewrite Eb in E. cbn [rbind fst snd] in E.
  apply bind_err in E as (ben & _ & E); [|apply ni_beneficiary]. apply bind_err in E as (m & Em & E); [|apply ni_caf].
  apply bind_err in E as (w & Ew & E); [|apply ni_rfold; intros; apply ni_spend].
  destruct (transition_builder_ok _ _ _ _ _ _ _ Eb) as (g & si & i & im & tt' & B1 & B2 & B3 & B4 & B5 & B6 & B7 & B8 & B9 & B10).
  assert (K1 : asks D s inv cid' tt' a').
  { exists iface0, g, si, i, im, X. repeat (split; [assumption|]). split.
    - destruct (InvoiceModel.operation inv); exact B8.
    - eapply payment_type_ok; [exact B9|reflexivity|exact Ea]. }
  destruct (asks_fun _ _ _ _ _ _ _ _ _ Ha K1) as (<- & <- & <-). rewrite Hst in Ew, E. cbn [pay] in E.
  destruct (caf_ok _ _ _ _ _ Em Hsp) as [W Hp]. pose proof (Permutation_trans (listed_perm od cid m Ho) Hp) as Hl.
  set (lst := listed od cid m) in *.
  assert (W0 := winv_start D s ch X method layer cid a tt None (df_tags D g) b B10).
  assert (Hw' : no_wrap wrap a ([] ++ lst)) by (destruct Hw as [Hw|Hw]; [left; exact Hw|right; cbn [app]; rewrite (total_perm a _ _ Hl); exact Hw]).
  pose proof (spends_inv _ _ _ _ _ _ _ _ _ _ _ _ lst _ _ _ W0 Hw' Ew) as W1. cbn [app] in W1.
  destruct (pay_amount D wrap s ch X method layer cid a ben amt w) as [w'|e|] eqn:Ep; [|cbn in E; injection E as ->|discriminate].
  2: { left. unfold pay_amount in Ep. rewrite (wi_sum _ _ _ _ _ _ _ _ _ _ _ _ _ W1), (total_perm a _ _ Hl) in Ep. destruct (N.ltb_spec (total a l) amt); [assumption|].
       exfalso. revert Ep. apply ni_bind; [apply ni_sub64|intros sm _]. destruct (if sm <? amt then _ else _) as [p1 p2].
       apply ni_bind; [destruct (0 <? p1); [apply ni_wk_call|apply ni_ok]|intros w1 _]. apply ni_bind; [destruct (0 <? p2); [apply ni_wk_call|apply ni_ok]|intros w2 _].
       apply ni_bind; [apply ni_output|intros c _]. apply ni_bind; [destruct (p1 <? sm); [apply ni_wk_call|apply ni_ok]|intros w3 _]. destruct (p2 <? _); [apply ni_wk_call|apply ni_ok]. }
  right. cbn [rbind] in E. apply bind_err in E as (spm & _ & E); [|apply ni_spent_state]. apply bind_err in E as (blanks & _ & E); [|apply ni_blanks_for].
  destruct (pay_amount_ok _ _ _ _ _ _ _ _ _ _ _ _ _ _ _ _ _ W1 Ep) as (_ & _ & change & bp & bc & _ & Hside).
  assert (Hin : forall me, has_inputs (sel (keqb me method) w') = false -> with_method me l = []).
  { intros me En. destruct (Hside me) as (O & _ & S). rewrite (side_inputs _ _ _ _ _ _ _ S) in En. destruct (map snd (with_method me lst)) eqn:Eq; [|discriminate].
    apply map_eq_nil in Eq. apply Permutation_nil. pose proof (with_method_perm me _ _ Hl) as Q. rewrite Eq in Q. exact Q. }
  pose proof (Hin method) as I1. pose proof (Hin (other method)) as I2. rewrite keqb_refl in I1. replace (keqb (other method) method) with false in I2 by (destruct method; reflexivity).
  cbn [sel] in I1, I2.
  assert (Hlast : forall (bs : TrBuilder * list OutSeal * option (TrBuilder * list OutSeal)),
    NI (let! first := finish H P od (fst (fst bs)) (snd (fst bs)) in
        let! second := match snd bs with Some (b, outputs) => rmap Some (finish H P od b outputs) | None => Ok None end in
        Ok (set_priority priority {| ba_main := {| di_first := first; di_second := second |}; ba_blanks := blanks |}))).
  { intros bs. apply ni_bind; [apply ni_finish|intros f _]. apply ni_bind; [|intros se _; apply ni_ok]. destruct (snd bs) as [[b0 o0]|]; [|apply ni_ok].
    unfold NI. pose proof (ni_finish H P od b0 o0) as Hf. unfold NI in Hf. destruct (finish H P od b0 o0); cbn; congruence. }
  destruct (has_inputs (wk_main w')), (has_inputs (wk_alt w')); cbn [rbind] in E.
  - exfalso. exact (Hlast (_, _, Some (_, _)) E).
  - exfalso. exact (Hlast (_, _, None) E).
  - exfalso. exact (Hlast (_, _, None) E).
  - assert (E1 := I1 eq_refl). assert (E2 := I2 eq_refl). destruct l as [|x l]; [reflexivity|]. exfalso.
    assert (Hx : In x (with_method method (x :: l)) \/ In x (with_method (other method) (x :: l))).
    { rewrite !In_with_method. destruct (os_method (in_seal x)), method; cbn; auto. }
    rewrite E1, E2 in Hx. destruct Hx as [[]|[]].
Qed.
End Err.

(** ** Totals *)
Lemma amount_out_unblind ty p : amount_out ty (fst p, unblinded (snd p)) = amount_out ty p.
Proof. destruct p as [t [ | |c [|v b tag|v sa|f sa]|c [|v b tag|v sa|f sa]]]; reflexivity. Qed.
Lemma goes_unblind seal p : goes_to seal (unblinded p) = goes_to seal p.
Proof. destruct seal, p; reflexivity. Qed.
Lemma total_out_shown ty t : total_out ty t = list_sum (map (amount_out ty) (shown t)).
Proof. unfold total_out, shown. rewrite map_map. f_equal. apply map_ext. intros p. symmetry. apply amount_out_unblind. Qed.
Lemma paid_to_shown seal ty t : paid_to seal ty t = list_sum (map (amount_out ty) (filter (fun p => goes_to seal (snd p)) (shown t))).
Proof.
  unfold paid_to, shown. induction (made t) as [|p l IH]; [reflexivity|]. cbn [map filter snd]. rewrite goes_unblind. destruct (goes_to seal (snd p)); [|exact IH].
  cbn [map]. unfold list_sum in *. cbn [fold_right]. rewrite amount_out_unblind, IH. reflexivity.
Qed.
Lemma moved_amount ch method layer u cid vel x r ty : moved ch method layer u cid vel x r -> amount_out ty r = amount_in ty x.
Proof.
  intros (seal & _ & ->). unfold amount_out, amount_in. cbn [fst snd]. destruct (in_ty x =? ty); [|reflexivity]. rewrite unblinded_assigned.
  destruct seal, (in_state x); reflexivity.
Qed.
Lemma moved_total ch method layer u cid vel l R ty : Forall2 (moved ch method layer u cid vel) l R -> list_sum (map (amount_out ty) R) = total ty l.
Proof.
  intros F. unfold total. induction F as [|x r l R M F IH]; [reflexivity|]. cbn [map]. unfold list_sum in *. cbn [fold_right]. rewrite IH, (moved_amount _ _ _ _ _ _ _ _ _ M). reflexivity.
Qed.
Lemma amount_to_out ty tag seal v ty' : list_sum (map (amount_out ty') (amount_to ty tag seal v)) = if ty =? ty' then v else 0.
Proof.
  unfold amount_to. destruct (N.eqb_spec v 0) as [->|_]; [destruct (ty =? ty'); reflexivity|]. unfold amount_out, list_sum. destruct seal; cbn; destruct (ty =? ty'); cbn; lia.
Qed.
Lemma total_other a l ty : ty <> a -> total ty (other_types a l) = total ty l.
Proof.
  intros N. unfold total, other_types, list_sum. induction l as [|x l IH]; [reflexivity|]. cbn [filter map fold_right]. destruct (N.eqb_spec (in_ty x) a) as [E|E]; cbn [negb map fold_right]; rewrite IH; [|reflexivity].
  unfold amount_in. destruct (N.eqb_spec (in_ty x) ty); [congruence|lia].
Qed.
Lemma total_other_same a l : total a (other_types a l) = 0.
Proof.
  unfold total, other_types, list_sum. induction l as [|x l IH]; [reflexivity|]. cbn [filter map fold_right]. destruct (N.eqb_spec (in_ty x) a) as [E|E]; cbn [negb map fold_right]; [exact IH|].
  rewrite IH. unfold amount_in. destruct (N.eqb_spec (in_ty x) a); [congruence|lia].
Qed.
Lemma goes_assigned seal seal' st : goes_to seal (assigned seal' st) = true <-> seal = seal'.
Proof.
  destruct seal, seal'; cbn; try (split; [discriminate|congruence]).
  - rewrite keqb_eq. split; congruence.
  - rewrite N.eqb_eq. split; congruence.
Qed.
Lemma amount_to_goes seal ty tag v ty' : list_sum (map (amount_out ty') (filter (fun p => goes_to seal (snd p)) (amount_to ty tag seal v))) = if ty =? ty' then v else 0.
Proof.
  rewrite <- (amount_to_out ty tag seal v ty'). f_equal. f_equal. unfold amount_to. destruct (v =? 0); [reflexivity|]. cbn [filter snd].
  rewrite (proj2 (goes_assigned seal seal _) eq_refl). reflexivity.
Qed.
Lemma amount_to_not seal seal' ty tag v : seal <> seal' -> filter (fun p => goes_to seal (snd p)) (amount_to ty tag seal' v) = [].
Proof.
  intros N. unfold amount_to. destruct (v =? 0); [reflexivity|]. cbn [filter snd]. destruct (goes_to seal (assigned seal' (RAmount v 0 tag))) eqn:E; [|reflexivity].
  apply goes_assigned in E. contradiction.
Qed.
Lemma moved_not ch method layer u cid vel l R seal a : Forall2 (moved ch method layer u cid vel) (other_types a l) R ->
  list_sum (map (amount_out a) (filter (fun p => goes_to seal (snd p)) R)) = 0.
Proof.
  intros F. assert (Ha : Forall (fun r => amount_out a r = 0) R).
  { assert (Hl : Forall (fun x => amount_in a x = 0) (other_types a l)).
    { apply Forall_forall. intros x Hx. apply In_other_types in Hx as [_ Hx]. unfold amount_in. destruct (N.eqb_spec (in_ty x) a); [contradiction|reflexivity]. }
    induction F as [|x r lo R M F IH]; constructor; [rewrite (moved_amount _ _ _ _ _ _ _ _ _ M); exact (Forall_inv Hl)|apply IH; exact (Forall_inv_tail Hl)]. }
  clear F. unfold list_sum. induction R as [|r R IH]; [reflexivity|]. cbn [filter]. pose proof (Forall_inv Ha) as H0. apply Forall_inv_tail in Ha.
  destruct (goes_to seal (snd r)); [|exact (IH Ha)]. cbn [map fold_right]. rewrite H0, (IH Ha). reflexivity.
Qed.

(** The sum over the transitions of the contract *)
Lemma sum_methods cid l ts (f : CloseMethod -> N) : spends_all cid l ts -> (forall m, with_method m l = [] -> f m = 0) ->
  list_sum (map (fun t => f (ti_method t)) ts) = f TapretFirst + f OpretFirst.
Proof.
  intros (N0 & Hc & Hg) Hz.
  assert (Hn : forall m, ~ In m (map ti_method ts) -> f m = 0).
  { intros m Hm. apply Hz. destruct (with_method m l) as [|x r] eqn:E; [reflexivity|]. exfalso. apply Hm.
    assert (Hx : In x (with_method m l)) by (rewrite E; left; reflexivity). apply In_with_method in Hx as [Hx Em].
    destruct (Hc x Hx) as (t & Ht & Et). rewrite Em in Et. rewrite <- Et. apply in_map. exact Ht. }
  rewrite <- (map_map ti_method f). clear Hc Hg. revert N0 Hn. generalize (map ti_method ts). clear. intros ms N0 Hn.
  assert (Hcase : ms = [] \/ ms = [TapretFirst] \/ ms = [OpretFirst] \/ ms = [TapretFirst; OpretFirst] \/ ms = [OpretFirst; TapretFirst]).
  { destruct ms as [|m1 [|m2 [|m3 r]]].
    - auto.
    - destruct m1; auto.
    - apply NoDup_cons_iff in N0 as [H1 _]. cbn in H1. destruct m1, m2; auto; exfalso; apply H1; auto.
    - exfalso. apply NoDup_cons_iff in N0 as [H1 N0]. apply NoDup_cons_iff in N0 as [H2 _]. cbn in H1, H2. destruct m1, m2, m3; intuition congruence. }
  unfold list_sum. destruct Hcase as [->|[->|[->|[->| ->]]]]; cbn [map fold_right]; try lia.
  - rewrite (Hn TapretFirst), (Hn OpretFirst) by (intros []). lia.
  - rewrite (Hn OpretFirst); [lia|]. intros [E|[]]; discriminate.
  - rewrite (Hn TapretFirst); [lia|]. intros [E|[]]; discriminate.
Qed.
