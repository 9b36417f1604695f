(** * From an invoice to a balance: proofs *)
From Coq Require Import Lia.
From Verif Require Import Base StM Core Ser MergeModel MergeSpec MergeProofs ContainerModel ContainerSpec ContainerProofs.
From Verif Require Import PIndexModel PIndexSpec PIndexProofs StateModel StateSpec StateProofs StashModel StashSpec StashProofs StashAgain.
From Verif Require Import StockModel StockProofs StockAgain ConsignModel ConsignSpec ConsignProofs ConsignAccept FasciaProps.
From Verif Require Import TransferProofs TransferSpec TransferProps ExportProps.
From Verif Require Import InvoiceModel SupplModel IfaceModel BuilderModel BuilderSpec BuilderProofs BuilderComplete BuilderProps ComposeModel ComposeSpec ComposeProofs ComposeMain ComposePaid
  ComposeBlank ComposeProps PaySpec.
Local Open Scope N_scope.

Section Fascia.
Context {OG : OrdKey GlobalOut} (H : Hashes) (HC : collision_free H) (K : Merkle).

Lemma sall_each l : forall s c, sall_succeed H s l -> In c l -> exists a b, state_call H c a = (b, Base.Ok tt).
Proof.
  induction l as [|d l IH]; intros s c Su Hin; [destruct Hin|]. cbn [sall_succeed] in Su. destruct Su as ((s1 & E1) & Su).
  destruct Hin as [->|Hin]; [eauto|eapply IH; eassumption].
Qed.

Lemma bundle_outputs cid b w r a a' t ty ta no seal st :
  state_call H (StBundle cid b w r) a = (a', Base.Ok tt) -> In t (mvals (b_known b)) ->
  In (ty, ta) (op_assigns t) -> nth_error (ta_list ta) no = Some (Revealed seal st) -> exists out, seal_output (Some w) seal out.
Proof.
  intros E Ht Hta Hn. cbn [state_call] in E. unfold update_from_bundle in E. unfold bind at 1, get in E.
  unfold bind at 1 in E. destruct (mhas cid (ms_contracts a)); [|discriminate]. unfold ret in E.
  destruct (mfor_each _ _ _ _ _ E Ht) as (s1 & s2 & E4).
  unfold bind at 1 in E4. destruct (resolve r w s1) as [s3 [ord|e|]]; try discriminate.
  unfold add_transition, bind in E4. destruct (set_witness _ _ s3) as [s4 [[]|e|]]; try discriminate.
  unfold on_contract in E4. destruct (mget _ (ms_contracts s4)) as [cs|]; [|discriminate].
  unfold add_operation in E4. destruct (add_globals _ _ _ _) as [cs1|e|]; cbn [rbind] in E4; try discriminate.
  destruct (add_assignments _ _ _ _) as [cs2|e|] eqn:E5; try discriminate.
  destruct (assignments_outputs _ _ _ _ _ E5 _ _ _ _ _ Hta Hn) as (out & Eo). exists out. apply assign_output_spec. exact Eo.
Qed.

(** What a fascia reveals, the stock shows. *)
Lemma fascia_receives f r s s' cid b id t ty ta no x st :
  reachable H K s -> stock_call_ok H (SkFascia f r) -> fascia_body H f r s = (s', Base.Ok tt) ->
  In (cid, b) (fascia_bundles f) -> In (id, t) (b_known b) ->
  In (ty, ta) (op_assigns t) -> nth_error (ta_list ta) no = Some (Revealed x st) ->
  receives s' r cid (ta_kind ta) {| oo_op := id; oo_ty := ty; oo_no := N.of_nat no |} x st (fascia_witness_id f).
Proof.
  intros Re Okf Ef Hin Ht Hta Hn. pose proof (fascia_reachable H K f r s s' _ Re Okf Ef) as Re'.
  set (w := fascia_witness_id f). pose proof (Okf _ Hin) as [Bo Bs]. cbn [snd] in Bo, Bs.
  assert (Ht' : In t (mvals (b_known b))) by (apply in_map_iff; exists (id, t); auto).
  assert (Eid : op_id H t = id).
  { destruct Bo as [(B1 & B2 & _) _]. apply (B1 id t). apply In_mget; assumption. }
  pose proof Ef as Ef0. apply (fascia_ok H K) in Ef0. cbv zeta in Ef0. destruct Ef0 as (_ & _ & (As & Es) & _).
  destruct (sall_each _ _ _ As (in_map (fun p => StBundle (fst p) (snd p) w r) _ _ Hin)) as (a0 & a1 & E0). cbn [fst snd] in E0.
  destruct (bundle_outputs _ _ _ _ _ _ _ _ _ _ _ _ E0 Ht' Hta Hn) as (out & Ho).
  destruct (C57_state OG H K f r s s' cid b HC Re Ef Hin) as (C1 & C2 & _). destruct (C1 t Ht') as (C3 & _).
  destruct (C3 ty ta no x st out Hta Hn Ho) as (b0 & B1 & B2 & Hb). rewrite Eid in B1.
  destruct C2 as (Rw & Mw). { intros En. rewrite En in Ht. destruct Ht. }
  destruct (C57_indexed OG H K f r s s' cid b HC Re Ef Hin) as (_ & _ & Ix). destruct (Ix id t Ht) as (_ & Ia).
  assert (Asg : PIndexSpec.assigned t ty no (Revealed x st)) by (exists ta; auto).
  destruct (Ia ty no _ Asg) as (Io & _). destruct (Io x out eq_refl Ho) as (_ & Fo).
  destruct Re' as (l & Hl & El). destruct (after_state H K l s' El Hl) as (ls & Els & Hs).
  assert (Wf : swf (sk_state s')) by (rewrite Els; apply safter_wf).
  assert (Hc : exists mc, contract_state (sk_state s') cid = Base.Ok mc).
  { apply contract_state_ok. destruct Hb as (cs & Hc & _). exists cs. exact Hc. }
  destruct Hc as [mc Ec].
  set (ow := OWTransition w (op_ty t)).
  set (a := {| oa_opout := {| oo_op := op_id H t; oo_ty := ty; oo_no := N.of_nat no |};
               oa_seal := out; oa_state := st; oa_witness := Some w |}).
  assert (Ra : reveals H t ow (ta_kind ta) a) by (exists ty, ta, no, x, st; cbn; auto 10).
  pose proof Hb as Hb'. rewrite Els in Hb'. apply safter_sound in Hb'. destruct Hb' as (call & Hic & ow' & o' & Im' & Rb).
  destruct (reveals_fun H t o' ow ow' (ta_kind ta) (ta_kind ta) a b0 HC (Bs t Ht') (Hs _ _ _ _ Hic Im') Ra Rb) as (_ & Est & _).
  { split; [cbn [a oa_opout]; rewrite B1, Eid; reflexivity|symmetry; exact B2]. }
  eapply to_receives; [exact Rw|exact Mw|exact Ho|exact Fo|exact B1|exact B2|symmetry; exact Est| |exact Ec|exact Hb|].
  - intros Tx. rewrite <- (seal_output_witness (Some w) (oa_witness b0) x out Tx Ho); [reflexivity|].
    eapply (revealed_seal_same H HC t o' ow' _ _ _ _ _ b0); [apply (Bs t Ht')|exact (Hs _ _ _ _ Hic Im')|exact Hta|exact Hn|exact Rb| |exact B2].
    rewrite Eid. exact B1.
  - rewrite (outs_all_spec _ _ _ _ _ Wf Ec). tauto.
Qed.
End Fascia.

(** ** The outputs of a transition *)

Definition slots (H : Hashes) (t : Operation) : list (Opout * Assign) :=
  flat_map (fun p : N * TypedAssigns => map (fun q => ({| oo_op := op_id H t; oo_ty := fst p; oo_no := N.of_nat (fst q) |}, snd q))
    (enumerate (ta_list (snd p)))) (op_assigns t).

Lemma enum_snd {A} (l : list A) : forall n, map snd (enum_from n l) = l.
Proof. induction l as [|x l IH]; intros n; cbn; [reflexivity|]. rewrite IH. reflexivity. Qed.
Lemma enum_fst_NoDup {A} (l : list A) n : NoDup (map fst (enum_from n l)).
Proof.
  revert n. induction l as [|x l IH]; intros n; cbn; constructor; [|apply IH]. intros Hin. apply in_map_iff in Hin as ([i a] & Ei & Hin).
  apply enum_from_In in Hin. cbn in Ei. subst i. lia.
Qed.

Lemma slots_made H t : map (fun q => (oo_ty (fst q), snd q)) (slots H t) = made t.
Proof.
  unfold slots, made. generalize (op_id H t). intros id. induction (op_assigns t : list (N * TypedAssigns)) as [|[ty ta] l IH]; [reflexivity|]. cbn [flat_map].
  rewrite map_app, IH. f_equal. rewrite map_map. cbn [fst snd oo_ty]. unfold enumerate. rewrite <- (map_map snd (fun a => (ty, a))), enum_snd. reflexivity.
Qed.
Lemma slots_In H t oo a : In (oo, a) (slots H t) <->
  exists ty ta no, In (ty, ta) (op_assigns t) /\ nth_error (ta_list ta) no = Some a /\ oo = {| oo_op := op_id H t; oo_ty := ty; oo_no := N.of_nat no |}.
Proof.
  unfold slots. rewrite in_flat_map. split.
  - intros ([ty ta] & Hp & Hq). apply in_map_iff in Hq as ([no a'] & Eq & Hq). injection Eq as <- <-. apply enumerate_In in Hq. exists ty, ta, no. auto.
  - intros (ty & ta & no & Hp & Hn & ->). exists (ty, ta). split; [exact Hp|]. apply in_map_iff. exists (no, a). split; [reflexivity|]. apply enumerate_In. exact Hn.
Qed.
Lemma NoDup_appl {A} (l l' : list A) : NoDup l -> NoDup l' -> (forall x, In x l -> In x l' -> False) -> NoDup (l ++ l').
Proof.
  induction l as [|x l IH]; intros N1 N2 D; [exact N2|]. inversion_clear N1. cbn. constructor.
  - rewrite in_app_iff. intros [Hx|Hx]; [contradiction|]. apply (D x); [left; reflexivity|exact Hx].
  - apply IH; [assumption|assumption|]. intros y Hy. apply D. right. exact Hy.
Qed.
Lemma slots_NoDup H t : msorted (op_assigns t : omap N TypedAssigns) -> NoDup (map fst (slots H t)).
Proof.
  intros S. apply msorted_NoDup in S. unfold slots. revert S. generalize (op_id H t). intros id. unfold mkeys.
  induction (op_assigns t : list (N * TypedAssigns)) as [|[ty ta] l IH]; intros S; [constructor|]. cbn [flat_map map fst snd] in *. inversion_clear S as [|? ? Nin Nd].
  rewrite map_app, map_map. apply NoDup_appl.
  - cbn [fst]. rewrite <- (map_map fst (fun n => {| oo_op := id; oo_ty := ty; oo_no := N.of_nat n |})). apply FinFun.Injective_map_NoDup.
    + intros n n' E. injection E as E. apply Nat2N.inj, E.
    + apply enum_fst_NoDup.
  - apply IH. assumption.
  - intros oo J1 J2. apply in_map_iff in J1 as (q & <- & _). apply in_map_iff in J2 as ([oo' a] & E & J2). cbn [fst] in E. subst oo'.
    apply in_flat_map in J2 as ([ty' ta'] & Hp & Hq). apply in_map_iff in Hq as (q' & Eq & _). injection Eq as Et _ _. cbn [fst] in Et. subst ty'.
    apply Nin. apply in_map_iff. exists (ty, ta'). auto.
Qed.

(** ** Vectors of assignments hold states of their kind *)

Definition kinded (a : Assignments) : Prop :=
  forall ty (ta : TypedAssigns) x, In (ty, ta) a -> In x (ta_list ta) -> exists st, revealed_state x = Some st /\ kind_of st = ta_kind ta.

Lemma rmap_entries_In {A B} (f : N -> A -> result BuilderError B) m : forall m', rmap_entries f m = Ok m' ->
  forall k b, In (k, b) m' -> exists a, In (k, a) m /\ f k a = Ok b.
Proof.
  induction m as [|[k a] m IH]; intros m' E k' b Hin; cbn in E; [injection E as <-; destruct Hin|].
  apply rbind_ok in E as (b0 & E0 & E). apply rbind_ok in E as (r & Er & E). injection E as <-.
  destruct Hin as [Eq|Hin]; [injection Eq as <- <-; exists a; cbn; auto|]. destruct (IH _ Er _ _ Hin) as (a' & Ha & Ef). exists a'. cbn. auto.
Qed.
Lemma typed_kinded k l ta : typed_assigns k l = Ok ta -> ta_kind ta = k /\ ta_list ta = l.
Proof. unfold typed_assigns. destruct l; [discriminate|]. destruct (_ <=? _); [|discriminate]. intros E. injection E as <-. auto. Qed.
Lemma assign_of_state s st : revealed_state (assign_of s st) = Some st.
Proof. destruct s; reflexivity. Qed.

Lemma extend_kinded l : forall a a', kinded a -> kinded l -> extend_assigns a l = Ok a' -> kinded a'.
Proof.
  unfold extend_assigns. induction l as [|[ty ta] l IH]; intros a a' Ka Kl E; cbn [rfold fst snd] in E; [injection E as <-; exact Ka|].
  apply rbind_ok in E as (a1 & E1 & E). destruct (cinsert U8MAX ty ta a) as [a2|] eqn:Ec; [|discriminate]. injection E1 as <-.
  apply (IH a2 a'); [|intros ty' ta' x Hin; apply (Kl ty' ta'); right; exact Hin|exact E].
  intros ty' ta' x Hin. apply cinsert_inv in Ec. destruct Ec as [-> _]. apply In_insert in Hin.
  destruct Hin as [Hin|Hin]; [injection Hin as -> ->; apply (Kl ty ta x); left; reflexivity|apply (Ka ty' ta' x Hin)].
Qed.

Lemma set_last_same b l : map fst (set_last_blinding b l) = map fst l.
Proof. induction l as [|[s v] l IH]; [reflexivity|]. destruct l; [reflexivity|]. cbn [set_last_blinding map] in *. cbn [fst]. f_equal. exact IH. Qed.

Lemma complete_kinded P order inputs b a : complete P order inputs b = Ok a -> kinded a.
Proof.
  unfold complete. intros E. apply rbind_ok in E as (fu & E1 & E). apply rbind_ok in E as (da & E2 & E). apply rbind_ok in E as (ri & E3 & E).
  apply rbind_ok in E as (at_ & E4 & E). apply rbind_ok in E as (a1 & E5 & E). apply rbind_ok in E as (a2 & E6 & E).
  assert (K1 : kinded fu).
  { intros ty ta x Hin Hx. destruct (rmap_entries_In _ _ _ E1 _ _ Hin) as (l & _ & Ef). unfold complete_fungible in Ef.
    apply rbind_ok in Ef as (l' & _ & Ef). apply typed_kinded in Ef as [-> El]. rewrite El in Hx. apply in_map_iff in Hx as (p & <- & _).
    rewrite assign_of_state. eexists. split; reflexivity. }
  assert (K2 : kinded da).
  { intros ty ta x Hin Hx. destruct (rmap_entries_In _ _ _ E2 _ _ Hin) as (l & _ & Ef). apply typed_kinded in Ef as [-> El]. rewrite El in Hx.
    apply in_map_iff in Hx as (p & <- & _). rewrite assign_of_state. eexists. split; reflexivity. }
  assert (K3 : kinded ri).
  { intros ty ta x Hin Hx. destruct (rmap_entries_In _ _ _ E3 _ _ Hin) as (l & _ & Ef). apply typed_kinded in Ef as [-> El]. rewrite El in Hx.
    apply in_map_iff in Hx as (p & <- & _). rewrite assign_of_state. eexists. split; reflexivity. }
  assert (K4 : kinded at_).
  { intros ty ta x Hin Hx. destruct (rmap_entries_In _ _ _ E4 _ _ Hin) as (l & _ & Ef). apply typed_kinded in Ef as [-> El]. rewrite El in Hx.
    apply in_map_iff in Hx as (p & <- & _). rewrite assign_of_state. eexists. split; reflexivity. }
  exact (extend_kinded _ _ _ (extend_kinded _ _ _ (extend_kinded _ _ _ K1 K2 E5) K3 E6) K4 E).
Qed.

Lemma finish_kinded H P od b outs i : finish H P od b outs = Ok i -> kinded (op_assigns (ti_transition i)).
Proof.
  intros E. unfold finish in E. apply rbind_ok in E as (t & Ec & E).
  assert (Ec' : complete_transition P (or_rights od) b = Ok t) by (destruct (complete_transition P (or_rights od) b); cbn in Ec; congruence).
  destruct (transition_info_new H t outs) as [i'| |] eqn:Ei; try discriminate. injection E as ->.
  assert (Et : ti_transition i = t).
  { unfold transition_info_new in Ei. destruct outs; [discriminate|]. destruct (_ <? _); [discriminate|]. destruct (existsb _ _); [discriminate|].
    injection Ei as <-. reflexivity. }
  rewrite Et. unfold complete_transition in Ec'. apply rbind_ok in Ec' as (a & Ea & Ec'). injection Ec' as <-. cbn [op_assigns]. eapply complete_kinded, Ea.
Qed.

Lemma pair_kinded p d : (forall i, In i (di_iter d) -> kinded (op_assigns (ti_transition i))) ->
  forall i, In i (di_iter (set_pair_nonce p d)) -> kinded (op_assigns (ti_transition i)).
Proof.
  intros Hd i Hi. destruct d as [x [y|]]; cbn in Hi.
  - destruct Hi as [<-|[<-|[]]]; cbn; apply Hd; cbn; auto.
  - destruct Hi as [<-|[]]; cbn; apply Hd; cbn; auto.
Qed.

Lemma blank_kinded H D P s ch od method layer iface p d : blank_for H D P s ch od method layer iface p = Ok d ->
  forall i, In i (di_iter d) -> kinded (op_assigns (ti_transition i)).
Proof.
  destruct p as [id m]. intros E. unfold blank_for in E. apply rbind_ok in E as ([X b] & Eb & E). rewrite Eb in E. cbn [rbind fst snd] in E.
  apply rbind_ok in E as (w & Ew & E). apply rbind_ok in E as (infos & Ei & E).
  assert (Hi : forall i, In i infos -> kinded (op_assigns (ti_transition i))).
  { assert (Hg : forall l acc infos, rfold (fun acc q => let (b, outputs) := q : TrBuilder * list OutSeal in
                  if has_inputs b then let! i := finish H P od b outputs in Ok (acc ++ [i]) else Ok acc) acc l = Ok infos ->
                (forall i, In i acc -> kinded (op_assigns (ti_transition i))) -> forall i, In i infos -> kinded (op_assigns (ti_transition i))).
    { clear. induction l as [|[b o] l IH]; intros acc infos E Ha; cbn [rfold] in E; [injection E as <-; exact Ha|].
      apply rbind_ok in E as (acc' & E1 & E). eapply IH; [exact E|]. destruct (has_inputs b); [|injection E1 as <-; exact Ha].
      apply rbind_ok in E1 as (i & E1 & E2). injection E2 as <-. intros j Hj. apply in_app_or in Hj as [Hj|[<-|[]]]; [apply Ha, Hj|eapply finish_kinded, E1]. }
    eapply Hg; [exact Ei|]. intros i []. }
  intros i Hd. apply Hi. destruct infos as [|i1 [|i2 [|i3 q]]]; cbn in E; try discriminate; injection E as <-; exact Hd.
Qed.

Lemma compose_kinded H D P wrap s ch od inv prev method vout priority now batch :
  compose H D P wrap s ch od inv prev method vout priority now = Ok batch ->
  forall d, In d (ba_main batch :: ba_blanks batch) -> forall i, In i (di_iter d) -> kinded (op_assigns (ti_transition i)).
Proof.
  intros E. destruct (compose_ok _ _ _ _ _ _ _ _ _ _ _ _ _ _ E) as (iface & cid' & tt' & a' & X & b & T & ben & m & w & w' & spm & blanks & builders & first & second &
    _ & _ & _ & _ & _ & _ & _ & _ & _ & _ & K10 & K11 & K12 & K13 & -> & _).
  unfold blanks_for in K10. destruct (blanks_for_ok _ _ _ _ _ _ _ _ _ _ _ _ K10) as (ds & -> & F). cbn [app] in *. intros d [<-|Hd].
  - cbn [ba_main set_priority]. apply pair_kinded. intros i Hi. unfold di_iter in Hi. cbn [di_first di_second] in Hi. destruct Hi as [<-|Hi]; [eapply finish_kinded, K12|].
    destruct (snd builders) as [[b2 o2]|]; [|injection K13 as <-; destruct Hi]. apply rmap_ok in K13 as (j & K13 & ->). destruct Hi as [<-|[]]. eapply finish_kinded, K13.
  - cbn [ba_blanks set_priority] in Hd. apply in_map_iff in Hd as (d0 & <- & Hd). apply pair_kinded.
    clear -F Hd. induction F as [|p d ps ds Ed F IH]; [destruct Hd|]. destruct Hd as [->|Hd]; [eapply blank_kinded, Ed|apply IH, Hd].
Qed.

(** ** What is paid to a seal *)

Definition amount_at (ben : BSeal) (a : N) (q : Opout * Assign) : option (Opout * N) :=
  if (oo_ty (fst q) =? a) && goes_to ben (snd q)
  then match revealed_state (snd q) with Some (RAmount v _ _) => Some (fst q, v) | _ => None end else None.
Definition outs_to (H : Hashes) (ben : BSeal) (a : N) (t : Operation) : list (Opout * N) := filter_map (amount_at ben a) (slots H t).

Lemma outs_to_sum H ben a t : list_sum (map snd (outs_to H ben a t)) = paid_to ben a t.
Proof.
  unfold outs_to, paid_to. rewrite <- (slots_made H t). induction (slots H t) as [|[oo x] l IH]; [reflexivity|].
  cbn [map filter_map filter fst snd]. unfold amount_at at 1. cbn [fst snd]. unfold list_sum in *. destruct (N.eqb_spec (oo_ty oo) a) as [E|E]; cbn [andb].
  - destruct (goes_to ben x); [|exact IH]. cbn [map fold_right]. unfold amount_out at 1. cbn [fst snd]. rewrite E, N.eqb_refl.
    destruct (revealed_state x) as [[]|]; cbn [map fold_right snd]; rewrite IH; reflexivity.
  - destruct (goes_to ben x); [|exact IH]. cbn [map fold_right]. unfold amount_out at 1. cbn [fst snd]. destruct (N.eqb_spec (oo_ty oo) a); [contradiction|]. rewrite IH. reflexivity.
Qed.
Lemma outs_to_incl H ben a t : forall oo, In oo (map fst (outs_to H ben a t)) -> In oo (map fst (slots H t)).
Proof.
  intros oo Hin. apply in_map_iff in Hin as ([oo' v] & E & Hin). cbn in E. subst oo'. apply filter_map_In in Hin as ([o x] & Hin & E). unfold amount_at in E. cbn [fst snd] in E.
  destruct (_ && _); [|discriminate]. destruct (revealed_state x) as [[]|]; try discriminate. injection E as <- _. apply in_map_iff. exists (o, x). auto.
Qed.
Lemma filter_map_NoDup {A B C} (f : A * B -> option (A * C)) (l : list (A * B)) : (forall q p, f q = Some p -> fst p = fst q) ->
  NoDup (map fst l) -> NoDup (map fst (filter_map f l)).
Proof.
  intros Hf. induction l as [|q l IH]; intros Nd; [constructor|]. cbn [map filter_map] in *. inversion_clear Nd as [|? ? Nin Nd']. specialize (IH Nd').
  destruct (f q) as [p|] eqn:Ep; [|exact IH]. cbn [map]. constructor; [|exact IH]. rewrite (Hf _ _ Ep). intros Hin. apply Nin.
  apply in_map_iff in Hin as (p' & Ef & Hin). apply filter_map_In in Hin as (q' & Hin & Eq). rewrite (Hf _ _ Eq) in Ef. apply in_map_iff. exists q'. auto.
Qed.
Lemma outs_to_NoDup H ben a t : msorted (op_assigns t : omap N TypedAssigns) -> NoDup (map fst (outs_to H ben a t)).
Proof.
  intros S. apply filter_map_NoDup; [|apply slots_NoDup, S]. intros [o x] p E. unfold amount_at in E. cbn [fst snd] in E. destruct (_ && _); [|discriminate].
  destruct (revealed_state x) as [[]|]; try discriminate. injection E as <-. reflexivity.
Qed.
Lemma outs_to_In H ben a t oo v : kinded (op_assigns t) -> In (oo, v) (outs_to H ben a t) ->
  oo_ty oo = a /\ oo_op oo = op_id H t /\
  exists ta no x bl tag, In (a, ta) (op_assigns t) /\ ta_kind ta = KFungible /\ nth_error (ta_list ta) no = Some x /\ goes_to ben x = true /\
    revealed_state x = Some (RAmount v bl tag) /\ oo = {| oo_op := op_id H t; oo_ty := a; oo_no := N.of_nat no |}.
Proof.
  intros Ki Hin. apply filter_map_In in Hin as ([o x] & Hin & E). unfold amount_at in E. cbn [fst snd] in E. destruct (N.eqb_spec (oo_ty o) a) as [Et|]; [|discriminate].
  destruct (goes_to ben x) eqn:Eg; [|discriminate]. cbn [andb] in E. destruct (revealed_state x) as [[|v' bl tag| |]|] eqn:Er; try discriminate. injection E as <- <-.
  apply slots_In in Hin as (ty & ta & no & Hp & Hn & ->). cbn [oo_ty oo_op] in *. subst ty. split; [reflexivity|]. split; [reflexivity|].
  exists ta, no, x, bl, tag. split; [exact Hp|]. split; [|auto]. destruct (Ki _ _ x Hp (nth_error_In _ _ Hn)) as (st & Es & Ek). rewrite Er in Es. injection Es as <-. symmetry. exact Ek.
Qed.

(** ** Ids *)

Lemma spends_ids H cid l ts : collision_free H -> NoDup (map in_out l) -> spends_all cid l ts -> NoDup (map (fun i => op_id H (ti_transition i)) ts).
Proof.
  intros HC Nd (Nm & _ & Hs).
  assert (Inj : forall i j, In i ts -> In j ts -> op_id H (ti_transition i) = op_id H (ti_transition j) -> ti_method i = ti_method j).
  { intros i j Hi Hj E. apply (same_id_conceal H _ _ HC) in E. assert (Ei : op_inputs (ti_transition i) = op_inputs (ti_transition j)) by (apply (f_equal op_inputs) in E; exact E).
    destruct (Hs i Hi) as (Ne & _ & _ & Pi & _). destruct (Hs j Hj) as (_ & _ & _ & Pj & _).
    destruct (with_method (ti_method i) l) as [|x r] eqn:Ex; [contradiction|].
    assert (Hx : In x (with_method (ti_method i) l)) by (rewrite Ex; left; reflexivity).
    assert (Hin : In (in_out x) (map in_out (with_method (ti_method j) l))).
    { eapply Permutation_in; [exact Pj|]. rewrite <- Ei. eapply Permutation_in; [apply Permutation_sym; exact Pi|]. left. reflexivity. }
    apply in_map_iff in Hin as (y & Ey & Hy). apply In_with_method in Hx as [Hx Mx]. apply In_with_method in Hy as [Hy My].
    assert (x = y). { clear -Nd Hx Hy Ey. induction l as [|z l IH]; [destruct Hx|]. cbn in Nd. inversion_clear Nd as [|? ? Nin Nd'].
      destruct Hx as [->|Hx], Hy as [->|Hy]; try reflexivity; [| |apply IH; assumption]; exfalso; apply Nin; apply in_map_iff; eauto. }
    subst y. congruence. }
  clear -Nm Inj. induction ts as [|i ts IH]; cbn in *; [constructor|]. inversion_clear Nm as [|? ? Nin Nd]. constructor.
  - intros Hin. apply in_map_iff in Hin as (j & Ej & Hj). apply Nin. rewrite (Inj i j); auto. apply in_map, Hj.
  - apply IH; [exact Nd|]. intros a b Ha Hb. apply Inj; auto.
Qed.

(** Outputs of transitions with different ids are different. *)
Lemma flat_NoDup {A} H (g : Operation -> list (Opout * A)) ts : NoDup (map (fun i => op_id H (ti_transition i)) ts) ->
  (forall i, In i ts -> NoDup (map fst (g (ti_transition i)))) ->
  (forall i oo, In i ts -> In oo (map fst (g (ti_transition i))) -> oo_op oo = op_id H (ti_transition i)) ->
  NoDup (map fst (flat_map (fun i => g (ti_transition i)) ts)).
Proof.
  induction ts as [|i ts IH]; intros Nd Hn Ho; [constructor|]. cbn [map flat_map] in *. inversion_clear Nd as [|? ? Nin Nd']. rewrite map_app. apply NoDup_appl.
  - apply Hn. left. reflexivity.
  - apply IH; [exact Nd'| |]; intros; [apply Hn|apply Ho]; try right; assumption.
  - intros oo J1 J2. apply Nin. apply (Ho i oo (or_introl eq_refl)) in J1. apply in_map_iff in J2 as (q & Eq & J2). apply in_flat_map in J2 as (j & Hj & J2).
    apply in_map_iff. exists j. split; [|exact Hj]. rewrite <- J1. symmetry. apply Ho; [right; exact Hj|]. rewrite <- Eq. apply in_map, J2.
Qed.
Lemma flat_sum H ben a ts : list_sum (map snd (flat_map (fun i => outs_to H ben a (ti_transition i)) ts)) =
  list_sum (map (fun i => paid_to ben a (ti_transition i)) ts).
Proof.
  induction ts as [|i ts IH]; [reflexivity|]. cbn [flat_map map]. rewrite map_app, list_sum_app, IH, outs_to_sum. reflexivity.
Qed.

(** ** What goes back to the payer *)

Lemma shown_slots H t : shown t = map (fun q => (oo_ty (fst q), unblinded (snd q))) (slots H t).
Proof. unfold shown. rewrite <- (slots_made H t), map_map. reflexivity. Qed.
Lemma kind_unblind st : kind_of (unblind st) = kind_of st.
Proof. destruct st; reflexivity. Qed.

Lemma NoDup_sub {A} (l l' l2 : list A) : Permutation l2 (l ++ l') -> NoDup l2 -> NoDup l.
Proof.
  intros Hp Nd. apply (Permutation_NoDup Hp) in Nd. clear Hp l2. induction l as [|x l IH]; [constructor|]. cbn in Nd. inversion_clear Nd as [|? ? Nin Nd'].
  constructor; [|apply IH, Nd']. intros Hx. apply Nin. apply in_or_app. left. exact Hx.
Qed.

Lemma back_of H ch method layer u cid vel t l R rest :
  msorted (op_assigns t : omap N TypedAssigns) -> kinded (op_assigns t) ->
  Permutation (shown t) (R ++ rest) -> Forall2 (moved ch method layer u cid vel) l R ->
  exists back : list (Inp * Opout), map fst back = l /\ NoDup (map snd back) /\
    forall y oo, In (y, oo) back -> oo_ty oo = in_ty y /\ oo_op oo = op_id H t /\
      exists ta no x st, In (in_ty y, ta) (op_assigns t) /\ nth_error (ta_list ta) no = Some (Revealed x st) /\ ta_kind ta = kind_of (in_state y) /\
        payer_seal ch method layer (u y) cid (in_ty y) (vel (in_ty y)) (BRevealed x) /\ unblind st = unblind (in_state y) /\
        oo = {| oo_op := op_id H t; oo_ty := in_ty y; oo_no := N.of_nat no |}.
Proof.
  intros So Ki Hp F. rewrite (shown_slots H t) in Hp. apply Permutation_sym, Permutation_map_inv in Hp as (sl & Em & Hp).
  symmetry in Em. apply map_eq_app in Em as (s1 & s2 & -> & E1 & _).
  assert (Hs : forall q, In q s1 -> In q (slots H t)) by (intros q Hq; eapply Permutation_in; [apply Permutation_sym; exact Hp|apply in_or_app; left; exact Hq]).
  assert (Nd : NoDup (map fst s1)). { apply (Permutation_map fst) in Hp. rewrite map_app in Hp. eapply NoDup_sub; [exact Hp|]. apply slots_NoDup, So. }
  assert (Hb : exists back : list (Inp * Opout), map fst back = l /\ map snd back = map fst s1 /\
    forall y oo, In (y, oo) back -> oo_ty oo = in_ty y /\ oo_op oo = op_id H t /\
      exists ta no x st, In (in_ty y, ta) (op_assigns t) /\ nth_error (ta_list ta) no = Some (Revealed x st) /\ ta_kind ta = kind_of (in_state y) /\
        payer_seal ch method layer (u y) cid (in_ty y) (vel (in_ty y)) (BRevealed x) /\ unblind st = unblind (in_state y) /\
        oo = {| oo_op := op_id H t; oo_ty := in_ty y; oo_no := N.of_nat no |});
    [|destruct Hb as (back & E1' & E2' & Hb); exists back; split; [exact E1'|split; [rewrite E2'; exact Nd|exact Hb]]].
  clear Hp s2 Nd. subst R. revert l F. induction s1 as [|[oo a] s1 IH]; intros l F.
  - inversion F; subst. exists []. split; [reflexivity|]. split; [reflexivity|]. intros ? ? [].
  - cbn [map fst snd] in F. inversion F as [|y r l0 R0 M F0]; subst.
    destruct (IH (fun q Hq => Hs q (or_intror Hq)) l0 F0) as (back & Eb & Nb & Hb).
    exists ((y, oo) :: back). split; [cbn; rewrite Eb; reflexivity|]. split; [cbn; rewrite Nb; reflexivity|].
    intros z o [Ez|Hz]; [|apply Hb, Hz]. injection Ez as <- <-.
    destruct M as (seal & Ps & Er). injection Er as Et Ea. pose proof Ps as (vo & Ev & ->). cbn [assigned unblinded] in Ea.
    destruct a as [| | |x st]; cbn [unblinded] in Ea; try discriminate. injection Ea as -> Es.
    pose proof (Hs _ (or_introl eq_refl)) as Hq. apply slots_In in Hq as (ty & ta & no & Hta & Hn & ->). cbn [oo_ty oo_op fst] in *. subst ty.
    split; [reflexivity|]. split; [reflexivity|]. eexists ta, no, _, st. split; [exact Hta|]. split; [exact Hn|].
    split; [|split; [exact Ps|split; [exact Es|reflexivity]]].
    destruct (Ki _ _ _ Hta (nth_error_In _ _ Hn)) as (st' & Est & Ek). cbn [revealed_state] in Est. injection Est as <-. rewrite <- Ek, <- (kind_unblind st), Es, kind_unblind. reflexivity.
Qed.

Lemma method_flat (l : list Inp) : forall ms, NoDup ms -> (forall x, In x l -> In (os_method (in_seal x)) ms) -> Permutation (flat_map (fun m => with_method m l) ms) l.
Proof.
  induction l as [|x l IH]; intros ms Nd Hc.
  - clear. induction ms; [constructor|exact IHms].
  - assert (Hp : Permutation (flat_map (fun m => with_method m (x :: l)) ms) ((if existsb (keqb (os_method (in_seal x))) ms then [x] else []) ++ flat_map (fun m => with_method m l) ms)).
    { clear IH Hc. induction ms as [|m ms IHm]; [constructor|]. inversion_clear Nd as [|? ? Nin Nd']. specialize (IHm Nd'). cbn [flat_map existsb]. unfold with_method at 1. cbn [filter].
      destruct (keqb_spec (os_method (in_seal x)) m) as [E|E]; cbn [orb].
      - fold (with_method m l). cbn [app]. constructor. apply Permutation_app_head.
        destruct (existsb (keqb (os_method (in_seal x))) ms) eqn:Ex; [|exact IHm]. exfalso. apply existsb_exists in Ex as (m' & Hm & Em). apply keqb_true in Em. subst. contradiction.
      - fold (with_method m l). eapply perm_trans; [apply Permutation_app_head, IHm|]. rewrite !app_assoc. apply Permutation_app_tail. apply Permutation_app_comm. }
    eapply perm_trans; [exact Hp|]. replace (existsb (keqb (os_method (in_seal x))) ms) with true.
    + cbn [app]. constructor. apply IH; [exact Nd|]. intros y Hy. apply Hc. right. exact Hy.
    + symmetry. apply existsb_exists. exists (os_method (in_seal x)). split; [apply Hc; left; reflexivity|apply keqb_refl].
Qed.
Lemma spends_perm cid l ts : spends_all cid l ts -> Permutation (flat_map (fun i => with_method (ti_method i) l) ts) l.
Proof.
  intros (Nm & Hc & _). eapply perm_trans; [|apply (method_flat l (map ti_method ts) Nm)].
  - rewrite flat_map_concat_map, (flat_map_concat_map _ (map _ _)), map_map. apply Permutation_refl.
  - intros x Hx. destruct (Hc x Hx) as (i & Hi & Em). apply in_map_iff. exists i. auto.
Qed.
Lemma others_perm cid a l ts : spends_all cid l ts -> Permutation (flat_map (fun i => other_types a (with_method (ti_method i) l)) ts) (other_types a l).
Proof.
  intros S. apply spends_perm in S. unfold other_types at 2. apply (BuilderComplete.filter_perm (fun x => negb (in_ty x =? a))) in S.
  eapply perm_trans; [|exact S]. clear S. induction ts as [|i ts IH]; [constructor|]. cbn [flat_map]. rewrite filter_app. apply Permutation_app_head, IH.
Qed.

Lemma sum_incl {A} (f : A -> N) (l : list A) : forall l', NoDup l -> incl l l' -> list_sum (map f l) <= list_sum (map f l').
Proof.
  unfold list_sum. induction l as [|x l IH]; intros l' Nd Hi; [cbn; lia|]. inversion_clear Nd as [|? ? Nin Nd'].
  destruct (in_split x l' (Hi x (or_introl eq_refl))) as (l1 & l2 & ->). specialize (IH (l1 ++ l2) Nd').
  rewrite !map_app in *. cbn [map] in *. fold (list_sum (map f l)) in *. change (fold_right N.add 0 (?a ++ ?b)) with (list_sum (a ++ b)) in *.
  assert (Hi' : incl l (l1 ++ l2)).
  { intros y Hy. pose proof (Hi y (or_intror Hy)) as Hy'. apply in_app_or in Hy' as [Hy'|[<-|Hy']]; [apply in_or_app; auto|contradiction|apply in_or_app; auto]. }
  specialize (IH Hi'). rewrite !list_sum_app in *. unfold list_sum in *. cbn [fold_right]. lia.
Qed.
