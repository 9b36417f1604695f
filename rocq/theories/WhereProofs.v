(** * On which chain a payment is made: proofs *)
From Coq Require Import Lia.
From Verif Require Import Base StM Core Ser MergeModel MergeSpec MergeProofs ContainerModel ContainerSpec ContainerProofs.
From Verif Require Import PIndexModel PIndexSpec PIndexProofs StateModel StashModel StockModel InvoiceModel SupplModel IfaceModel.
From Verif Require Import BuilderModel BuilderSpec BuilderProofs BuilderComplete BuilderProps ComposeModel ComposeSpec ComposeProofs ComposeMain ComposePaid ComposeBlank WhereSpec.
Local Open Scope list_scope.
Local Open Scope N_scope.

(** All seals in the builder have a property *)
Definition sealed (Q : BSeal -> Prop) (X : BuildCtx) (cid tt : N) (b : TrBuilder) : Prop :=
  exists T O I, side X cid tt b T O I /\ Forall (fun p => Q (snd (fst p))) O.

Section Sealed.
Context (Q : BSeal -> Prop) (X : BuildCtx) (cid tt : N).

Lemma sealed_new b T : side X cid tt b T [] [] -> sealed Q X cid tt b.
Proof. intros S. exists T, [], []. split; [exact S|constructor]. Qed.
Lemma sealed_input b o st b' : sealed Q X cid tt b -> t_call X b (TInput o st) = Ok b' -> sealed Q X cid tt b'.
Proof. intros (T & O & I & S & F) E. eexists _, _, _. split; [exact (side_input _ _ _ _ _ _ _ _ _ _ S E)|exact F]. Qed.
Lemma sealed_owned b ty x st b' : sealed Q X cid tt b -> Q x -> t_call X b (TOwnedRaw ty x st) = Ok b' -> sealed Q X cid tt b'.
Proof.
  intros (T & O & I & S & F) q E. eexists _, _, _. split; [exact (side_owned _ _ _ _ _ _ _ _ _ _ _ S E)|].
  apply Forall_app. split; [exact F|]. constructor; [exact q|constructor].
Qed.
Lemma sealed_fungible b ty x v bl b' : sealed Q X cid tt b -> Q x -> t_call X b (TFungibleRaw ty x v bl) = Ok b' -> sealed Q X cid tt b'.
Proof.
  intros (T & O & I & S & F) q E. destruct (side_fungible _ _ _ _ _ _ _ _ _ _ _ _ S E) as (tag & _ & S'). eexists _, _, _. split; [exact S'|].
  apply Forall_app. split; [exact F|]. constructor; [exact q|constructor].
Qed.
Lemma sealed_data b ty x v salt b' : sealed Q X cid tt b -> Q x -> t_call X b (TDataRaw ty x v salt) = Ok b' -> sealed Q X cid tt b'.
Proof.
  intros (T & O & I & S & F) q E. eexists _, _, _. split; [exact (side_data _ _ _ _ _ _ _ _ _ _ _ _ S E)|].
  apply Forall_app. split; [exact F|]. constructor; [exact q|constructor].
Qed.

(** What is made of the builder has the seals in it. *)
Lemma sealed_finish H P od b outs i : orders_ok od -> len (fs_owned (bc_schema X)) <= 255 -> sealed Q X cid tt b -> finish H P od b outs = Ok i ->
  forall p, In p (made (ti_transition i)) -> exists x st, Q x /\ snd p = assigned x st.
Proof.
  intros (_ & _ & _ & Ho) Hs (T & O & I & (l & B & _ & HO & _) & F) E p Hp. unfold finish in E. apply rbind_ok in E as (t & Ec & E).
  assert (Ec' : complete_transition P (or_rights od) b = Ok t) by (destruct (complete_transition P (or_rights od) b); cbn in Ec; congruence).
  destruct (transition_info_new H t outs) as [i'| |] eqn:Ei; try discriminate. injection E as ->.
  assert (Et : ti_transition i = t).
  { unfold transition_info_new in Ei. destruct outs; [discriminate|]. destruct (_ <? _); [discriminate|]. destruct (existsb _ _); [discriminate|].
    injection Ei as <-. reflexivity. }
  destruct (C44_transition_partial X P _ cid tt b l t Ho Hs B Ec') as (_ & _ & _ & _ & (_ & Sh & _) & _).
  rewrite Et in Hp. apply (in_map (fun p => (fst p, unblinded (snd p)))) in Hp.
  eapply Permutation_in in Hp; [|exact Sh]. apply in_map_iff in Hp as ([[ty x] st] & Eq & Hk). cbn [fst snd] in Eq.
  apply kept_In in Hk. apply latest_In in Hk. rewrite HO in Hk. rewrite Forall_forall in F. specialize (F _ Hk). cbn [fst snd] in F.
  apply (f_equal snd) in Eq. cbn [snd] in Eq. destruct (snd p) as [c s|s s0|c s|y s], x as [y'|c']; cbn in Eq; try discriminate.
  - exists (BConcealed c'), s. injection Eq as -> _. split; [exact F|reflexivity].
  - exists (BRevealed y'), s. injection Eq as -> _. split; [exact F|reflexivity].
Qed.
End Sealed.

Section Compose.
Context (H : Hashes) (D : Defs) (P : Pedersen) (wrap : bool) (s : Stock) (ch : Choices) (od : Orders).
Context (Q : BSeal -> Prop) (method : CloseMethod) (layer : Layer1).
Context (HQ : forall u cid ty v x, payer_seal ch method layer u cid ty v x -> Q x).

Section Work.
Context (X : BuildCtx) (cid tt a : N).
Definition wsealed (w : Work) : Prop := sealed Q X cid tt (wk_main w) /\ sealed Q X cid tt (wk_alt w).

Lemma wk_call_sealed main c w w' : (forall b b', sealed Q X cid tt b -> t_call X b c = Ok b' -> sealed Q X cid tt b') ->
  wsealed w -> wk_call X main c w = Ok w' -> wsealed w'.
Proof.
  intros Hc [Sm Sa] E. apply wk_call_ok in E as (b & Eb & ->). destruct main; split; cbn [wk_main wk_alt]; try assumption; eapply Hc; try exact Eb; assumption.
Qed.
Lemma spend_sealed lookup w x w' : wsealed w -> spend D wrap s ch X method layer cid a lookup w x = Ok w' -> wsealed w'.
Proof.
  intros W E. destruct x as [seal [o st]]. unfold spend in E. apply rbind_ok in E as (w1 & E1 & E).
  assert (W1 : wsealed w1) by (eapply wk_call_sealed; [|exact W|exact E1]; intros b b'; apply sealed_input). clear W E1.
  destruct (negb (oo_ty o =? a)).
  - apply rbind_ok in E as (out & Eo & E). apply output_for_ok in Eo. eapply wk_call_sealed; [|exact W1|exact E].
    intros b b' Sb. apply sealed_owned; [exact Sb|]. eapply HQ, Eo.
  - destruct st as [|v bl tag|v salt|f salt]; try (injection E as <-; exact W1).
    apply rbind_ok in E as (sum & _ & E). apply rbind_ok in E as (sum' & _ & E). injection E as <-. exact W1.
Qed.
Lemma spends_sealed lookup l : forall w w', wsealed w -> rfold (spend D wrap s ch X method layer cid a lookup) w l = Ok w' -> wsealed w'.
Proof.
  induction l as [|x l IH]; intros w w' W E; cbn [rfold] in E; [injection E as <-; exact W|]. apply rbind_ok in E as (w1 & E1 & E).
  eapply IH; [|exact E]. eapply spend_sealed; eassumption.
Qed.
Lemma opt_sealed (c : bool) main x v bl w w' : Q x -> wsealed w -> (if c then wk_call X main (TFungibleRaw a x v bl) w else Ok w) = Ok w' -> wsealed w'.
Proof.
  intros q W E. destruct c; [|injection E as <-; exact W]. eapply wk_call_sealed; [|exact W|exact E]. intros b b' Sb. apply sealed_fungible; assumption.
Qed.
Lemma pay_sealed ben st w w' : Q ben -> wsealed w -> pay D wrap s ch X method layer cid a ben st w = Ok w' -> wsealed w'.
Proof.
  intros q W E. destruct st as [|amt|al|]; cbn [pay] in E; try discriminate.
  - unfold pay_amount in E. destruct (_ <? _); [discriminate|]. apply rbind_ok in E as (sm & _ & E).
    cbv zeta in E. revert E. destruct (if sm <? amt then _ else _) as [pm pa]. intros E.
    apply rbind_ok in E as (w1 & E1 & E). apply (opt_sealed _ _ _ _ _ _ _ q W) in E1. apply rbind_ok in E as (w2 & E2 & E). apply (opt_sealed _ _ _ _ _ _ _ q E1) in E2.
    apply rbind_ok in E as (change & Eo & E). apply output_for_ok in Eo. apply HQ in Eo.
    apply rbind_ok in E as (w3 & E3 & E). apply (opt_sealed _ _ _ _ _ _ _ Eo E2) in E3. exact (opt_sealed _ _ _ _ _ _ _ Eo E3 E).
  - unfold pay_data in E. destruct (existsb _ _); [|discriminate]. eapply wk_call_sealed; [|exact W|exact E]. intros b b' Sb. apply sealed_data; assumption.
Qed.
End Work.

Lemma blanks_spend_sealed X id l : forall w w', sealed Q X id BLANK (fst w) /\ sealed Q X id BLANK (snd w) ->
  rfold (blank_spend D s ch X method layer id) w l = Ok w' -> sealed Q X id BLANK (fst w') /\ sealed Q X id BLANK (snd w').
Proof.
  induction l as [|[seal [o st]] l IH]; intros w w' [S1 S2] E; cbn [rfold] in E; [injection E as <-; auto|].
  apply rbind_ok in E as (w1 & E1 & E). eapply IH; [|exact E]. clear E IH. unfold blank_spend in E1. apply rbind_ok in E1 as (out & Eo & E1). apply output_for_ok in Eo.
  apply HQ in Eo. cbv zeta in E1.
  assert (Hs : forall b b', sealed Q X id BLANK b ->
    (let! b := co_builder (t_call X b (TInput o st)) in co_builder (t_call X b (TOwnedRaw (oo_ty o) out st))) = Ok b' -> sealed Q X id BLANK b').
  { intros b b' Sb Eb. apply rbind_ok in Eb as (b1 & Eb1 & Eb2).
    assert (Ec1 : t_call X b (TInput o st) = Ok b1) by (destruct (t_call X b (TInput o st)); cbn in Eb1; congruence).
    assert (Ec2 : t_call X b1 (TOwnedRaw (oo_ty o) out st) = Ok b') by (destruct (t_call X b1 (TOwnedRaw (oo_ty o) out st)); cbn in Eb2; congruence).
    eapply sealed_owned; [eapply sealed_input; eassumption|exact Eo|exact Ec2]. }
  destruct (os_method seal); apply rbind_ok in E1 as (b & Eb & E1); injection E1 as <-; cbn [fst snd]; split; try assumption; (eapply Hs; [|exact Eb]; assumption).
Qed.

Lemma blank_for_sealed iface p d : orders_ok od -> schemata_small D -> blank_for H D P s ch od method layer iface p = Ok d ->
  forall i, In i (di_iter d) -> forall q, In q (made (ti_transition i)) -> exists x st, Q x /\ snd q = assigned x st.
Proof.
  intros Ho Hsm E. destruct p as [id m]. unfold blank_for in E. apply rbind_ok in E as ([X b] & Eb & E). rewrite Eb in E. cbn [rbind fst snd] in E.
  apply rbind_ok in E as (w & Ew & E). apply rbind_ok in E as (infos & Ei & E).
  destruct (blank_builder_ok _ _ _ _ _ _ Eb) as ((r & Er) & (T & Sd)).
  apply (blanks_spend_sealed X id) in Ew; [|split; eapply sealed_new; exact Sd].
  assert (Hl : len (fs_owned (bc_schema X)) <= 255) by (rewrite Er; apply Hsm).
  assert (Hi : forall i, In i infos -> forall q, In q (made (ti_transition i)) -> exists x st, Q x /\ snd q = assigned x st).
  { assert (Hg : forall l acc infos, (forall b o, In (b, o) l -> sealed Q X id BLANK b) ->
                rfold (fun acc q => let (b, outputs) := q : TrBuilder * list OutSeal in
                  if has_inputs b then let! i := finish H P od b outputs in Ok (acc ++ [i]) else Ok acc) acc l = Ok infos ->
                (forall i, In i acc -> forall q, In q (made (ti_transition i)) -> exists x st, Q x /\ snd q = assigned x st) ->
                forall i, In i infos -> forall q, In q (made (ti_transition i)) -> exists x st, Q x /\ snd q = assigned x st).
    { clear -Ho Hl. induction l as [|[b o] l IH]; intros acc infos Hs E Ha; cbn [rfold] in E; [injection E as <-; exact Ha|].
      apply rbind_ok in E as (acc' & E1 & E). eapply IH; [intros b' o' Hin; eapply Hs; right; exact Hin|exact E|].
      destruct (has_inputs b); [|injection E1 as <-; exact Ha].
      apply rbind_ok in E1 as (i & E1 & E2). injection E2 as <-. intros j Hj. apply in_app_or in Hj as [Hj|[<-|[]]]; [apply Ha, Hj|].
      eapply sealed_finish; [exact Ho|exact Hl|eapply Hs; left; reflexivity|exact E1]. }
    eapply Hg; [|exact Ei|intros i []]. intros b' o [Eq|[Eq|[]]]; injection Eq as <- _; apply Ew. }
  intros i Hd. apply Hi. destruct infos as [|i1 [|i2 [|i3 q]]]; cbn in E; try discriminate; injection E as <-; exact Hd.
Qed.
End Compose.

Lemma made_nonce p d i : In i (di_iter (set_pair_nonce p d)) -> exists j, In j (di_iter d) /\ made (ti_transition i) = made (ti_transition j).
Proof.
  intros Hi. destruct d as [x [y|]]; cbn in Hi.
  - destruct Hi as [<-|[<-|[]]]; [exists x|exists y]; (split; [cbn; auto|reflexivity]).
  - destruct Hi as [<-|[]]. exists x. split; [cbn; auto|reflexivity].
Qed.

(** The assignments of a composed batch *)
Lemma compose_placed H D P wrap s ch od inv prev method vout priority now batch :
  let layer := layer1 (chain_network (beneficiary inv)) in
  orders_ok od -> schemata_small D ->
  compose H D P wrap s ch od inv prev method vout priority now = Ok batch ->
  (forall i p, In i (di_iter (ba_main batch)) -> In p (made (ti_transition i)) ->
     to_payer layer method (snd p) \/ to_beneficiary D layer vout (xcn_into_inner (beneficiary inv)) (snd p)) /\
  (forall d i p, In d (ba_blanks batch) -> In i (di_iter d) -> In p (made (ti_transition i)) -> to_payer layer method (snd p)).
Proof.
  intros layer Ho Hsm E. destruct (compose_ok _ _ _ _ _ _ _ _ _ _ _ _ _ _ E) as (iface & cid & tt & a & X & b & T & ben & m & w & w' & spm & blanks & builders & first & second &
    _ & _ & (r & Er) & _ & Sd & Hben & _ & K7 & K8 & _ & K10 & K11 & K12 & K13 & -> & _).
  assert (Hl : len (fs_owned (bc_schema X)) <= 255) by (rewrite Er; apply Hsm).
  unfold blanks_for in K10. destruct (blanks_for_ok _ _ _ _ _ _ _ _ _ _ _ _ K10) as (ds & -> & F). cbn [app] in *.
  set (Qp := fun x => match x with BRevealed y => s_layer y = layer /\ s_txid y = None /\ s_method y = method | BConcealed _ => False end).
  assert (HQp : forall u cid ty v x, payer_seal ch method layer u cid ty v x -> Qp x) by (intros u c ty v x (vo & _ & ->); cbn; auto).
  split.
  - set (Q := fun x => Qp x \/ x = ben).
    assert (W' : wsealed Q X cid tt w').
    { eapply pay_sealed; [|right; reflexivity| |exact K8]; [intros; left; eapply HQp; eassumption|].
      eapply spends_sealed; [| |exact K7]; [intros; left; eapply HQp; eassumption|]. split; eapply sealed_new; exact Sd. }
    assert (Hm : forall i, In i (di_iter {| di_first := first; di_second := second |}) -> forall q, In q (made (ti_transition i)) -> exists x st, Q x /\ snd q = assigned x st).
    { destruct W' as [Wm Wa]. unfold pick in K11.
      assert (Hb : sealed Q X cid tt (fst (fst builders)) /\ match snd builders with Some (b2, _) => sealed Q X cid tt b2 | None => True end).
      { destruct (has_inputs (wk_main w')), (has_inputs (wk_alt w')); try discriminate; injection K11 as <-; cbn [fst snd]; auto. }
      destruct Hb as [Hb1 Hb2]. intros i [<-|Hi]; [eapply sealed_finish; eassumption|]. cbn [di_second] in Hi.
      destruct (snd builders) as [[b2 o2]|]; [|injection K13 as <-; destruct Hi]. apply rmap_ok in K13 as (j & K13 & ->). destruct Hi as [<-|[]].
      eapply sealed_finish; eassumption. }
    intros i p Hi Hp. cbn [ba_main set_priority] in Hi. apply made_nonce in Hi as (j & Hj & Em). rewrite Em in Hp.
    destruct (Hm j Hj p Hp) as (x & st & [q| ->] & ->).
    + left. destruct x; [|destruct q]. cbn in q. cbn. unfold at_payment. tauto.
    + right. unfold is_beneficiary in Hben. destruct (xcn_into_inner (beneficiary inv)) as [x0|p2].
      * destruct Hben as [_ ->]. reflexivity.
      * destruct Hben as (v & -> & ->). cbn. unfold at_payment. cbn. auto.
  - intros d i p Hd Hi Hp. cbn [ba_blanks set_priority] in Hd. apply in_map_iff in Hd as (d0 & <- & Hd).
    assert (Hd0 : exists q, blank_for H D P s ch od method layer (df_name D iface) q = Ok d0).
    { clear -F Hd. induction F as [|q d ps ds Ed F IH]; [destruct Hd|]. destruct Hd as [->|Hd]; [exists q; exact Ed|apply IH, Hd]. }
    destruct Hd0 as (q & Ed). apply made_nonce in Hi as (j & Hj & Em). rewrite Em in Hp.
    destruct (blank_for_sealed H D P s ch od Qp method layer HQp _ _ _ Ho Hsm Ed j Hj p Hp) as (x & st & Hx & ->).
    destruct x; [|destruct Hx]. cbn in Hx. cbn. unfold at_payment. tauto.
Qed.

(** What [compose] takes from an invoice *)
Lemma compose_same H D P wrap s ch od i i' prev method vout priority now : same_request i i' ->
  compose H D P wrap s ch od i prev method vout priority now = compose H D P wrap s ch od i' prev method vout priority now.
Proof.
  intros (E1 & E2 & E3 & E4 & E5 & E6 & E7 & E8). unfold compose. rewrite E1, E2, E3, E4, E5, E6, E7.
  assert (Hb : forall layer cid a, beneficiary_seal D ch layer cid a (xcn_into_inner (beneficiary i)) vout = beneficiary_seal D ch layer cid a (xcn_into_inner (beneficiary i')) vout).
  { intros layer cid a. destruct (xcn_into_inner (beneficiary i)) as [x|p], (xcn_into_inner (beneficiary i')) as [x'|p']; try contradiction.
    - subst. reflexivity.
    - unfold beneficiary_seal. rewrite E8. reflexivity. }
  cbv zeta. destruct (match expiry i' with Some _ => _ | None => _ end); [reflexivity|].
  destruct (ok_or NoContract _) as [cid| |]; [|reflexivity..]. cbn [rbind]. destruct (rmap _ _); [|reflexivity..]. cbn [rbind].
  destruct (transition_builder _ _ _ _ _) as [mn| |]; [|reflexivity..]. cbn [rbind]. destruct (payment_type _ _ _ _) as [a0| |]; [|reflexivity..]. cbn [rbind].
  rewrite Hb. reflexivity.
Qed.
