(** * C84: a payment which can be made is made *)
From Coq Require Import Ascii String.
From Verif Require Import Base Str Core InvoiceModel SupplModel ContainerModel PIndexModel StateModel StashModel StockModel ConsignModel IfaceModel IfaceProps
  BuilderModel BuilderSpec BuilderProofs BuilderCalls BuilderComplete BuilderProps Ser ComposeModel ComposeSpec ComposeProofs ComposeMain ComposePaid ComposeBlank ComposeErr ComposeProps
  PayableSpec PayableProofs PayableMain PayableBlank PayableErr PayablePanic.
Local Open Scope list_scope.
Local Open Scope N_scope.

Section Props.
Context (H : Hashes) (D : Defs) (P : Pedersen) (wrap : bool) (s : Stock) (ch : Choices) (od : Orders).

Lemma payment_type_can X b inv tt a : tb_type b = tt -> asked_type D X tt inv a -> payment_type D X b (InvoiceModel.assignment inv) = Ok a.
Proof.
  intros Ht (name & Hn & Hd). unfold payment_type. destruct (InvoiceModel.assignment inv) as [n|].
  - subst name. cbn [rbind]. unfold assigns_type. unfold assignment_named in Hn. rewrite Hn. reflexivity.
  - rewrite <- Ht in Hd. apply default_ok in Hd. rewrite Hd. cbn [rbind]. unfold assigns_type. unfold assignment_named in Hn. rewrite Hn. reflexivity.
Qed.

Lemma spent_same cid prev l l' : spent s cid prev l -> spent s cid prev l' -> Permutation l l'.
Proof.
  intros [N1 H1] [N2 H2]. apply NoDup_Permutation; [eapply NoDup_map_inv; exact N1|eapply NoDup_map_inv; exact N2|]. intros x. rewrite H1, H2. reflexivity.
Qed.

(** A payment is made exactly when the invoice is not expired, there is an output for the
    beneficiary if one is needed, the given outputs have enough of the state, and the payer
    names outputs for everything else which is there. *)
Theorem C84_payable inv prev method vout priority now cid tt a l :
  sane D P od -> ready D s inv prev cid tt a l ->
  (forall id, beside s cid prev id -> exists l', ready_beside D s inv prev id l') ->
  (exists batch, compose H D P wrap s ch od inv prev method vout priority now = Ok batch) <-> payable D s ch inv prev vout now cid a l.
Proof.
  intros Hsane (Hasks & Hsp & Htot & iface & X & b & g & Hif & Hg & Hb & Hin) Hbes. pose proof Hsane as (Ho & Hsz & HP).
  set (layer := layer1 (chain_network (beneficiary inv))).
  destruct (transition_builder_ok _ _ _ _ _ _ _ Hb) as (g' & si & i & im & tt' & B1 & B2 & B3 & B4 & B5 & B6 & B7 & B8 & B9 & S).
  rewrite Hg in B1. apply Ok_inj in B1. subst g'. set (T := df_tags D g) in *.
  assert (Hs255 : len (fs_owned (bc_schema X)) <= 255) by (rewrite B5; apply Hsz).
  assert (Hty : tt' = tt /\ asked_type D X tt inv a).
  { destruct Hasks as (n' & gg & si' & i' & im' & X' & A1 & A2 & A3 & A4 & A5 & A6 & A7 & A8 & A9 & A10 & A11).
    assert (gg = g) by congruence. subst gg. assert (si' = si) by congruence. subst si'. assert (n' = iface) by congruence. subst n'.
    assert (i' = i) by congruence. subst i'. assert (im' = im) by congruence. subst im'.
    assert (Ett : tt' = tt).
    { destruct (InvoiceModel.operation inv) as [op|]; cbn [option_map] in B8; [congruence|]. destruct A10 as (op & C1 & C2), B8 as (op' & C3 & C4). congruence. }
    split; [exact Ett|]. destruct A11 as (nm & A11 & A12). exists nm. split; [unfold assignment_named in *; congruence|]. destruct (InvoiceModel.assignment inv); [exact A12|].
    destruct A12 as (op & oi & C1 & C2 & C3). exists op, oi. rewrite B6, B7, <- A8, <- A9. auto. }
  destruct Hty as (-> & Hty). pose proof (payment_type_can X b inv tt a B9 Hty) as Ept.
  assert (Hcid : InvoiceModel.contract inv = Some cid) by (destruct Hasks as (n' & gg & si' & i' & im' & X' & A1 & _); exact A1).
  set (lookup := match owned_state inv with ISData al => Some (df_alloc D al) | _ => None end).
  assert (W0 := winv_start D s ch X method layer cid a tt lookup T b S).
  assert (Hlst : forall m, contract_assignments_for (sk_state s) cid (map os_outpoint prev) = Ok m -> wfs m /\ Permutation (flat m) l /\ Permutation (listed od cid m) l).
  { intros m Em. destruct (caf_ok _ _ _ _ _ Em Hsp) as [W Hp]. split; [exact W|]. split; [exact Hp|]. exact (Permutation_trans (listed_perm od cid m Ho) Hp). }
  assert (Hinl : forall m, contract_assignments_for (sk_state s) cid (map os_outpoint prev) = Ok m -> forall x, In x (listed od cid m) -> in_schema X T x).
  { intros m Em x Hx. destruct (Hlst m Em) as (_ & _ & Hl). apply Hin. apply (Permutation_in _ Hl). exact Hx. }
  (* the other contracts *)
  destruct (spent_state_can s cid (map os_outpoint prev)) as (spm & Espm).
  { intros id Hi Hne. destruct (Hbes id (conj Hi Hne)) as (l' & _ & Hc & _). exact Hc. }
  destruct (spent_state_ok _ _ _ _ Espm) as [Ss Hk]. pose proof Ho as (_ & _ & Hoc & _). specialize (Hoc spm).
  assert (Hblank : (exists blanks, blanks_for H D P s ch od method layer (df_name D iface) (or_contracts od spm) = Ok blanks) <->
    (forall id l', beside s cid prev id -> spent s id prev l' -> needs D s ch id l') /\
    (forall ids, NoDup ids -> (forall id, In id ids -> beside s cid prev id) -> len ids <= 16777214)).
  { unfold blanks_for. rewrite blanks_for_iff. change (len (@nil (Dichotomy TransitionInfo))) with 0. rewrite N.add_0_l, (len_perm _ _ Hoc), <- (len_map fst spm).
    assert (Hone : forall id l', beside s cid prev id -> spent s id prev l' -> exists m, mget id spm = Some m /\
      ((exists d, blank_for H D P s ch od method layer (df_name D iface) (id, m) = Ok d) <-> needs D s ch id l')).
    { intros id l' Hbe Hsp'. assert (Hi : In id (mkeys spm)) by (apply Hk; exact Hbe). apply mget_Some_in in Hi as (m & Hm). exists m. split; [exact Hm|].
      destruct (Hbes id Hbe) as (l0 & Hsp0 & _ & if0 & Y & b' & g' & E1 & E2 & E3 & E4). assert (if0 = iface) by congruence. subst if0.
      apply (blank_for_iff H D P s ch od method layer (df_name D iface) prev id m l' Y b' g' Hsane (spent_state_get _ _ _ _ _ _ Espm Hm) Hsp' E3 E2).
      intros x Hx. apply E4. apply (Permutation_in _ (spent_same _ _ _ _ Hsp' Hsp0)). exact Hx. }
    split.
    - intros [H1 H2]. split.
      + intros id l' Hbe Hsp'. destruct (Hone id l' Hbe Hsp') as (m & Hm & Hiff). apply Hiff. apply (H1 (id, m)). apply (Permutation_in _ (Permutation_sym Hoc)). apply mget_In. exact Hm.
      + intros ids ND Hids. destruct ids as [|i0 ids]; [discriminate|]. apply N.le_trans with (len (map fst spm)).
        * apply len_incl; [exact ND|]. intros id Hi. apply Hk. apply Hids. exact Hi.
        * apply H2. intros En. assert (Hi0 : In i0 (mkeys spm)) by (apply Hk; apply Hids; left; reflexivity). rewrite En in Hoc. apply Permutation_nil in Hoc. rewrite Hoc in Hi0. destruct Hi0.
    - intros [H1 H2]. split.
      + intros [id m] Hp. apply (Permutation_in _ Hoc) in Hp. pose proof (In_mget _ _ _ Ss Hp) as Hm. assert (Hbe : beside s cid prev id) by (apply Hk; apply mget_Some_in; eauto).
        destruct (Hbes id Hbe) as (l' & Hr). destruct (Hone id l' Hbe (proj1 Hr)) as (m' & Hm' & Hiff). rewrite Hm in Hm'. apply Some_inj in Hm'. subst m'. apply Hiff. apply H1; [exact Hbe|apply Hr].
      + intros _. apply H2; [apply msorted_NoDup; exact Ss|]. intros id Hi. apply Hk. exact Hi. }
  unfold compose. cbv zeta. fold layer lookup. rewrite Hcid, Hif. cbn [ok_or rbind rmap]. rewrite Hb. cbn [rbind fst snd]. rewrite Ept. cbn [rbind].
  rewrite Espm.
  (* after the loop and the payment *)
  assert (Hend : forall m w w' blanks, contract_assignments_for (sk_state s) cid (map os_outpoint prev) = Ok m ->
    inputs_fit l ->
    (forall me, exists O, side X cid tt (sel (keqb me method) w') T O (map snd (with_method me (listed od cid m)))) ->
    w = w' ->
    ((exists batch, (let! builders := pick od cid m method w' in
       let! first := finish H P od (fst (fst builders)) (snd (fst builders)) in
       let! second := match snd builders with Some (b, outputs) => rmap Some (finish H P od b outputs) | None => Ok None end in
       Ok (set_priority priority {| ba_main := {| di_first := first; di_second := second |}; ba_blanks := blanks |})) = Ok batch) <-> l <> [])).
  { intros m w w' blanks Em Hfit Hside _. destruct (Hlst m Em) as (W & Hp & Hl).
    assert (Hi : forall me f, (forall x, f x = keqb (os_method x) me) -> has_inputs (sel (keqb me method) w') = match with_method me l with [] => false | _ => true end /\
      (with_method me l <> [] -> exists i, finish H P od (sel (keqb me method) w') (outputs_with od cid m f) = Ok i)).
    { intros me f Hf. destruct (Hside me) as (O & Sd). pose proof (with_method_perm me _ _ Hl) as Hlm. split.
      + rewrite (side_inputs _ _ _ _ _ _ _ Sd). destruct (with_method me (listed od cid m)) as [|y q] eqn:Ey.
        * apply Permutation_nil in Hlm. rewrite Hlm. reflexivity.
        * cbn. destruct (with_method me l); [|reflexivity]. apply Permutation_sym, Permutation_nil in Hlm. discriminate.
      + intros Hne. eapply (finish_can X Hs255 H P od cid tt _ T O (with_method me (listed od cid m)) T m l me f HP Ho W Hp Hf).
        * intros En. apply Hne. rewrite En in Hlm. apply Permutation_nil in Hlm. exact Hlm.
        * exact Hlm.
        * rewrite (len_perm _ _ Hlm). apply Hfit.
        * exact Sd.
        * intros x Hx. apply In_with_method in Hx as [Hx _]. exact (Hinl m Em x Hx). }
    destruct (Hi method (of_method method) (fun _ => eq_refl)) as [I1 F1].
    destruct (Hi (other method) (fun x => negb (of_method method x)) (fun x => eq_sym (other_keqb (os_method x) method))) as [I2 F2].
    rewrite keqb_refl in I1, F1. replace (keqb (other method) method) with false in I2, F2 by (destruct method; reflexivity). cbn [sel] in I1, F1, I2, F2.
    unfold pick. rewrite I1, I2. destruct (with_method method l) as [|x1 q1] eqn:M1, (with_method (other method) l) as [|x2 q2] eqn:M2.
    - split; [intros (batch & E); discriminate|]. intros Hne. destruct Hne. apply with_nil. intros me. destruct me, method; assumption.
    - destruct (F2 ltac:(discriminate)) as (i2 & E2). cbn [rbind fst snd]. rewrite E2. cbn. split; [intros _ ->; discriminate|eauto].
    - destruct (F1 ltac:(discriminate)) as (i1 & E1). cbn [rbind fst snd]. rewrite E1. cbn. split; [intros _ ->; discriminate|eauto].
    - destruct (F1 ltac:(discriminate)) as (i1 & E1), (F2 ltac:(discriminate)) as (i2 & E2). cbn [rbind fst snd]. rewrite E1. cbn [rbind rmap]. rewrite E2. cbn.
      split; [intros _ ->; discriminate|eauto]. }
  assert (Hpaid : forall m w ben w', contract_assignments_for (sk_state s) cid (map os_outpoint prev) = Ok m ->
    winv D s ch X method layer cid a tt lookup T w (listed od cid m) -> pay D wrap s ch X method layer cid a ben (owned_state inv) w = Ok w' ->
    match owned_state inv with
    | ISAmount amt => amt <= total a l /\ ch_alloc ch UChange cid a (velocity_for D s cid a) <> None
    | ISData al => In (df_alloc D al) (data_in a l)
    | _ => False
    end /\ forall me, exists O, side X cid tt (sel (keqb me method) w') T O (map snd (with_method me (listed od cid m)))).
  { intros m w ben w' Em W Ep. destruct (Hlst m Em) as (_ & _ & Hl). destruct (owned_state inv) as [|amt|al|]; cbn [pay] in Ep; try discriminate.
    - destruct (pay_amount_ok _ _ _ _ _ _ _ _ _ _ _ _ _ _ _ _ _ W Ep) as (Q1 & _ & change & bp & bc & (v & Ev & _) & Hs). split.
      + rewrite <- (total_perm a _ _ Hl). split; [exact Q1|]. congruence.
      + intros me. destruct (Hs me) as (O & _ & Sd). eauto.
    - unfold pay_data in Ep. rewrite (wi_data _ _ _ _ _ _ _ _ _ _ _ _ _ W) in Ep. destruct (existsb (N.eqb (df_alloc D al)) (data_in a (listed od cid m))) eqn:Ex; [|discriminate].
      apply existsb_exists in Ex as (v & Hv & Ev). apply N.eqb_eq in Ev. subst v. split.
      + unfold data_in in *. apply in_flat_map in Hv as (x & Hx & Hv). apply in_flat_map. exists x. split; [apply (Permutation_in _ Hl); exact Hx|exact Hv].
      + apply wk_call_ok in Ep as (b1 & Eb & ->). intros me. destruct (winv_sel _ _ _ _ _ _ _ _ _ _ _ _ _ me W) as (O & Sd & _). fold (sel (wk_data_main w) w) in Eb.
        destruct (wk_data_main w), (keqb me method) eqn:Ek; cbn [sel wk_main wk_alt] in *; eauto; eexists; exact (side_data _ _ _ _ _ _ _ _ _ _ _ _ Sd Eb). }
  split.
  - intros (batch & E). destruct (match expiry inv with Some t => (t <? now)%Z | None => false end) eqn:Ex; [discriminate|].
    apply rbind_ok in E as (ben & Eben & E). apply rbind_ok in E as (m & Em & E). apply rbind_ok in E as (w & Ew & E). apply rbind_ok in E as (w' & Ep & E).
    cbn [rbind] in E. apply rbind_ok in E as (blanks & Ebl & E). destruct (Hlst m Em) as (Wm & Hp & Hl).
    pose proof (spends_inv _ _ _ _ _ _ _ _ _ _ _ _ (listed od cid m) _ _ _ W0 (or_intror (eq_ind_r (fun v => v <= U64MAX) Htot (total_perm a _ _ Hl))) Ew) as W1. cbn [app] in W1.
    assert (Hfit : inputs_fit l).
    { intros me. destruct (winv_sel _ _ _ _ _ _ _ _ _ _ _ _ _ me W1) as (O & Sd & _).
      assert (ND : NoDup (map fst (map snd (with_method me (listed od cid m))))).
      { rewrite map_map. change (NoDup (map in_out (with_method me (listed od cid m)))). apply NoDup_map_filter.
        eapply Permutation_NoDup; [apply Permutation_map, Permutation_sym; exact Hl|apply Hsp]. }
      pose proof (side_inputs_le _ _ _ _ _ _ _ Sd ND) as Q. rewrite len_map in Q. rewrite <- (len_perm _ _ (with_method_perm me _ _ Hl)). exact Q. }
    destruct (Hpaid m w ben w' Em W1 Ep) as [He Hside]. destruct (proj1 Hblank (ex_intro _ _ Ebl)) as [Hb1 Hb2].
    constructor; try assumption.
    + destruct (expiry inv); [|exact I]. apply Z.ltb_ge in Ex. lia.
    + unfold beneficiary_seal in Eben. destruct (xcn_into_inner (beneficiary inv)), vout; try discriminate; congruence.
    + apply (proj1 (Hend m w' w' blanks Em Hfit Hside eq_refl)). exists batch. exact E.
    + intros x Hx Ht. eapply winv_placed; [exact W1| |exact Ht]. apply (Permutation_in _ (Permutation_sym Hl)). exact Hx.
  - intros [P1 P2 P3 P4 P5 P6 P7 P8].
    assert (Ex : match expiry inv with Some t => (t <? now)%Z | None => false end = false) by (destruct (expiry inv); [apply Z.ltb_ge; lia|reflexivity]). rewrite Ex.
    assert (Eben : exists ben, beneficiary_seal D ch layer cid a (xcn_into_inner (beneficiary inv)) vout = Ok ben).
    { unfold beneficiary_seal. destruct (xcn_into_inner (beneficiary inv)), vout; try discriminate P2; try contradiction; eauto. }
    destruct Eben as (ben & Eben). rewrite Eben. cbn [rbind].
    assert (Hc : exists c, contract_state (sk_state s) cid = Ok c).
    { destruct l as [|x l]; [contradiction|]. destruct (proj1 (proj2 Hsp x) (or_introl eq_refl)) as [(c & k & w & Hc & _) _]. eauto. }
    destruct (proj2 (caf_can s cid (map os_outpoint prev)) Hc) as (m & Em). rewrite Em. cbn [rbind]. destruct (Hlst m Em) as (Wm & Hp & Hl).
    assert (Hfit' : inputs_fit (listed od cid m)) by (intros me; rewrite (len_perm _ _ (with_method_perm me _ _ Hl)); apply P5).
    destruct (spends_can D wrap s ch X method layer cid a tt lookup T Hs255 (listed od cid m) _ [] W0 (Hinl m Em)) as (w & Ew & W1).
    { intros x Hx Ht. apply P6; [apply (Permutation_in _ Hl); exact Hx|exact Ht]. }
    { exact Hfit'. }
    { cbn [app]. rewrite (total_perm a _ _ Hl). exact Htot. }
    rewrite Ew. cbn [rbind]. cbn [app] in W1.
    assert (Ep : exists w', pay D wrap s ch X method layer cid a ben (owned_state inv) w = Ok w').
    { destruct (owned_state inv) as [|amt|al|]; try contradiction; cbn [pay].
      - destruct P3 as [P3 P3']. eapply pay_amount_can; [exact Hs255|exact W1|exact (Hinl m Em)|exact Hfit'| |exact P3']. rewrite (total_perm a _ _ Hl). exact P3.
      - eapply pay_data_can; [exact Hs255|exact W1|exact (Hinl m Em)|exact Hfit'|]. unfold data_in in *. apply in_flat_map in P3 as (x & Hx & Hv). apply in_flat_map. exists x.
        split; [apply (Permutation_in _ (Permutation_sym Hl)); exact Hx|exact Hv]. }
    destruct Ep as (w' & Ep). rewrite Ep. cbn [rbind]. destruct (proj2 Hblank (conj P7 P8)) as (blanks & Ebl). rewrite Ebl. cbn [rbind].
    destruct (Hpaid m w ben w' Em W1 Ep) as [_ Hside]. apply (proj2 (Hend m w' w' blanks Em P5 Hside eq_refl)). exact P4.
Qed.

(** What is ready is what [compose] works with *)
Lemma ready_start inv prev cid tt a l : sane D P od -> ready D s inv prev cid tt a l -> exists iface X b g,
  InvoiceModel.contract inv = Some cid /\ InvoiceModel.iface inv = Some iface /\
  transition_builder D (sk_stash s) cid (df_name D iface) (option_map (df_name D) (InvoiceModel.operation inv)) = Ok (X, b) /\
  payment_type D X b (InvoiceModel.assignment inv) = Ok a /\ side X cid tt b (df_tags D g) [] [] /\
  len (fs_owned (bc_schema X)) <= 255 /\ (forall x, In x l -> in_schema X (df_tags D g) x) /\
  stash_genesis (sk_stash s) cid = Ok g.
Proof.
  intros Hsane (Hasks & Hsp & Htot & iface & X & b & g & Hif & Hg & Hb & Hin). pose proof Hsane as (Ho & Hsz & HP).
  destruct (transition_builder_ok _ _ _ _ _ _ _ Hb) as (g' & si & i & im & tt' & B1 & B2 & B3 & B4 & B5 & B6 & B7 & B8 & B9 & S).
  rewrite Hg in B1. apply Ok_inj in B1. subst g'. set (T := df_tags D g) in *.
  assert (Hs255 : len (fs_owned (bc_schema X)) <= 255) by (rewrite B5; apply Hsz).
  assert (Hty : tt' = tt /\ asked_type D X tt inv a).
  { destruct Hasks as (n' & gg & si' & i' & im' & X' & A1 & A2 & A3 & A4 & A5 & A6 & A7 & A8 & A9 & A10 & A11).
    assert (gg = g) by congruence. subst gg. assert (si' = si) by congruence. subst si'. assert (n' = iface) by congruence. subst n'.
    assert (i' = i) by congruence. subst i'. assert (im' = im) by congruence. subst im'.
    assert (Ett : tt' = tt).
    { destruct (InvoiceModel.operation inv) as [op|]; cbn [option_map] in B8; [congruence|]. destruct A10 as (op & C1 & C2), B8 as (op' & C3 & C4). congruence. }
    split; [exact Ett|]. destruct A11 as (nm & A11 & A12). exists nm. split; [unfold assignment_named in *; congruence|]. destruct (InvoiceModel.assignment inv); [exact A12|].
    destruct A12 as (op & oi & C1 & C2 & C3). exists op, oi. rewrite B6, B7, <- A8, <- A9. auto. }
  destruct Hty as (-> & Hty). pose proof (payment_type_can X b inv tt a B9 Hty) as Ept.
  assert (Hcid : InvoiceModel.contract inv = Some cid) by (destruct Hasks as (n' & gg & si' & i' & im' & X' & A1 & _); exact A1).
  exists iface, X, b, g. repeat (split; [assumption|]). assumption.
Qed.

(** An expired invoice, one without a contract or an interface, and a missing or superfluous
    output for the beneficiary are reported as such, in this order. *)
Theorem C84_order inv prev method vout priority now :
  let answer := compose H D P wrap s ch od inv prev method vout priority now in
  let in_time := match expiry inv with Some t => (now <= t)%Z | None => True end in
  (~ in_time -> answer = Err InvoiceExpired) /\
  (in_time -> InvoiceModel.contract inv = None -> answer = Err NoContract) /\
  (in_time -> InvoiceModel.contract inv <> None -> InvoiceModel.iface inv = None -> answer = Err NoIface) /\
  (forall cid tt a l, sane D P od -> ready D s inv prev cid tt a l -> in_time ->
     (forall x, xcn_into_inner (beneficiary inv) = BlindedSeal x -> vout <> None -> answer = Err BeneficiaryVout) /\
     (forall p, xcn_into_inner (beneficiary inv) = WitnessVout p -> vout = None -> answer = Err NoBeneficiaryOutput)).
Proof.
  cbv zeta. unfold compose.
  assert (Hex : match expiry inv with Some t => (now <= t)%Z | None => True end -> match expiry inv with Some t => (t <? now)%Z | None => false end = false).
  { destruct (expiry inv); [intros Hle; apply Z.ltb_ge; exact Hle|reflexivity]. }
  split; [|split; [|split]].
  - intros Hn. destruct (expiry inv) as [t|]; [|destruct (Hn I)]. assert (E : (t <? now)%Z = true) by (apply Z.ltb_lt; lia). rewrite E. reflexivity.
  - intros Ht Hc. rewrite (Hex Ht), Hc. reflexivity.
  - intros Ht Hc Hi. rewrite (Hex Ht), Hi. destruct (InvoiceModel.contract inv); [reflexivity|contradiction].
  - intros cid tt a l Hsane Hr Ht. destruct (ready_start _ _ _ _ _ _ Hsane Hr) as (iface & X & b & g & Hc & Hi & Hb & Hp & _). rewrite (Hex Ht), Hc, Hi. cbn [ok_or rbind rmap].
    rewrite Hb. cbn [rbind fst snd]. rewrite Hp. cbn [rbind]. split.
    + intros x Hx Hv. rewrite Hx. destruct vout; [reflexivity|contradiction].
    + intros p Hx ->. rewrite Hx. reflexivity.
Qed.

(** Whatever the stock and the invoice: when a payment is refused, what is reported is so. *)
Theorem C84_reason inv prev method vout priority now e : orders_ok od -> schemata_small D ->
  compose H D P wrap s ch od inv prev method vout priority now = Err e -> refusal D wrap s ch inv prev vout now e.
Proof. intros Ho Hsz E. exact (compose_err H D P wrap s ch od inv prev vout now method priority e Ho Hsz E). Qed.

(** Too little of the state is reported as that, if nothing else is missing for what is there *)
Theorem C84_little inv prev method vout priority now cid tt a l :
  sane D P od -> ready D s inv prev cid tt a l -> l <> [] -> inputs_fit l ->
  match expiry inv with Some t => (now <= t)%Z | None => True end ->
  match xcn_into_inner (beneficiary inv) with BlindedSeal _ => vout = None | WitnessVout _ => vout <> None end ->
  (forall x, In x l -> in_ty x <> a -> placed ch use_main cid (velocity_for D s cid) x) ->
  match owned_state inv with ISAmount amt => total a l < amt | ISData al => ~ In (df_alloc D al) (data_in a l) | _ => False end ->
  compose H D P wrap s ch od inv prev method vout priority now = Err InsufficientState.
Proof.
  intros Hsane Hr Hne Hfit Ht Hv Hpl Hlt. destruct (ready_start _ _ _ _ _ _ Hsane Hr) as (iface & X & b & g & Hc & Hi & Hb & Hp & S & Hs255 & Hin & _).
  destruct Hr as (_ & Hsp & Htot & _). pose proof Hsane as (Ho & _ & _). unfold compose. cbv zeta. set (layer := layer1 (chain_network (beneficiary inv))).
  assert (Ex : match expiry inv with Some t => (t <? now)%Z | None => false end = false) by (destruct (expiry inv); [apply Z.ltb_ge; exact Ht|reflexivity]).
  rewrite Ex, Hc, Hi. cbn [ok_or rbind rmap]. rewrite Hb. cbn [rbind fst snd]. rewrite Hp. cbn [rbind].
  assert (Eben : exists ben, beneficiary_seal D ch layer cid a (xcn_into_inner (beneficiary inv)) vout = Ok ben).
  { unfold beneficiary_seal. destruct (xcn_into_inner (beneficiary inv)), vout; try discriminate Hv; try contradiction; eauto. }
  destruct Eben as (ben & ->). cbn [rbind].
  assert (Hcs : exists c, contract_state (sk_state s) cid = Ok c).
  { destruct l as [|x l]; [contradiction|]. destruct (proj1 (proj2 Hsp x) (or_introl eq_refl)) as [(c & k & w & Hcs & _) _]. eauto. }
  destruct (proj2 (caf_can s cid (map os_outpoint prev)) Hcs) as (m & Em). rewrite Em. cbn [rbind].
  destruct (caf_ok _ _ _ _ _ Em Hsp) as [W Hpm]. pose proof (Permutation_trans (listed_perm od cid m Ho) Hpm) as Hl.
  set (lookup := match owned_state inv with ISData al => Some (df_alloc D al) | _ => None end).
  assert (W0 := winv_start D s ch X method layer cid a tt lookup (df_tags D g) b S).
  destruct (spends_can D wrap s ch X method layer cid a tt lookup (df_tags D g) Hs255 (listed od cid m) _ [] W0) as (w & Ew & W1).
  { intros x Hx. apply Hin. apply (Permutation_in _ Hl). exact Hx. }
  { intros x Hx. apply Hpl. apply (Permutation_in _ Hl). exact Hx. }
  { intros me. cbn [app]. rewrite (len_perm _ _ (with_method_perm me _ _ Hl)). apply Hfit. }
  { cbn [app]. rewrite (total_perm a _ _ Hl). exact Htot. }
  rewrite Ew. cbn [rbind]. cbn [app] in W1. destruct (owned_state inv) as [|amt|al|]; try contradiction; cbn [pay].
  - unfold pay_amount. rewrite (wi_sum _ _ _ _ _ _ _ _ _ _ _ _ _ W1), (total_perm a _ _ Hl). apply N.ltb_lt in Hlt. rewrite Hlt. reflexivity.
  - unfold pay_data. rewrite (wi_data _ _ _ _ _ _ _ _ _ _ _ _ _ W1). destruct (existsb (N.eqb (df_alloc D al)) (data_in a (listed od cid m))) eqn:Exi; [|reflexivity].
    apply existsb_exists in Exi as (v & Hvi & Ev). apply N.eqb_eq in Ev. subst v. exfalso. apply Hlt. unfold data_in in *. apply in_flat_map in Hvi as (x & Hx & Hvi). apply in_flat_map. exists x.
    split; [apply (Permutation_in _ Hl); exact Hx|exact Hvi].
Qed.

(** A payment of an amount or an allocation which is not made is refused with an error, and
    does not panic, if the other contracts which the index names have state there. *)
Theorem C84_answers inv prev method vout priority now cid tt a l :
  sane D P od -> ready D s inv prev cid tt a l ->
  (forall id, beside s cid prev id -> exists l', ready_beside D s inv prev id l' /\ l' <> []) ->
  match owned_state inv with ISAmount _ | ISData _ => True | _ => False end ->
  (exists x, In x l /\ in_ty x = a) ->
  match compose H D P wrap s ch od inv prev method vout priority now with
  | Ok _ => payable D s ch inv prev vout now cid a l
  | Err e => ~ payable D s ch inv prev vout now cid a l /\ refusal D wrap s ch inv prev vout now e
  | Panic => False
  end.
Proof.
  intros Hsane Hr Hbes Hst Hla.
  assert (Hiff := C84_payable inv prev method vout priority now cid tt a l Hsane Hr (fun id Hid => let (l', Q) := Hbes id Hid in ex_intro _ l' (proj1 Q))).
  destruct (compose H D P wrap s ch od inv prev method vout priority now) as [batch|e|] eqn:E.
  - apply Hiff. eauto.
  - split; [intros Hp; apply Hiff in Hp as (batch & Q); discriminate|]. apply (C84_reason inv prev method vout priority now e); [apply Hsane|apply Hsane|exact E].
  - destruct (ready_start _ _ _ _ _ _ Hsane Hr) as (iface & X & b & g & Hc & Hi & Hb & Hp & S & Hs255 & Hin & _).
    pose proof Hr as (_ & Hsp & Htot & _). pose proof Hsane as (Ho & _ & HP). revert E. unfold compose. cbv zeta. set (layer := layer1 (chain_network (beneficiary inv))).
    destruct (match expiry inv with Some t => (t <? now)%Z | None => false end) eqn:Ex; [discriminate|].
    rewrite Hc, Hi. cbn [ok_or rbind rmap]. rewrite Hb. cbn [rbind fst snd]. rewrite Hp. cbn [rbind].
    apply rbind_no_panic. { unfold beneficiary_seal. destruct (xcn_into_inner (beneficiary inv)), vout; discriminate. } intros ben Eben.
    apply rbind_no_panic; [apply caf_np|]. intros m Em. destruct (caf_ok _ _ _ _ _ Em Hsp) as [W Hpm]. pose proof (Permutation_trans (listed_perm od cid m Ho) Hpm) as Hl.
    set (lookup := match owned_state inv with ISData al => Some (df_alloc D al) | _ => None end).
    assert (W0 := winv_start D s ch X method layer cid a tt lookup (df_tags D g) b S).
    assert (Hinl : forall x, In x (listed od cid m) -> in_schema X (df_tags D g) x) by (intros x Hx; apply Hin; apply (Permutation_in _ Hl); exact Hx).
    assert (Htl : total a ([] ++ listed od cid m) <= U64MAX) by (cbn [app]; rewrite (total_perm a _ _ Hl); exact Htot).
    apply rbind_no_panic; [exact (spends_np D wrap s ch X method layer cid a tt lookup (df_tags D g) _ _ [] W0 Hinl Htl)|]. intros w Ew.
    pose proof (spends_inv D wrap s ch X method layer cid a tt lookup (df_tags D g) _ _ _ _ W0 (or_intror Htl) Ew) as W1. cbn [app] in W1.
    assert (Ha : mget a (fs_owned (bc_schema X)) <> None).
    { destruct Hla as (x & Hx & <-). exact (schema_known _ _ _ (Hin x Hx)). }
    apply rbind_no_panic; [exact (pay_np D wrap s ch X method layer cid a tt lookup (df_tags D g) w _ ben _ W1 Ha Hst)|]. intros w' Ep.
    destruct (spent_state_can s cid (map os_outpoint prev)) as (spm & Espm).
    { intros id Hid Hne. destruct (Hbes id (conj Hid Hne)) as (l' & (_ & Hcs & _) & _). exact Hcs. }
    rewrite Espm. cbn [rbind]. destruct (spent_state_ok _ _ _ _ Espm) as [Ss Hk]. pose proof Ho as (_ & _ & Hoc & _). specialize (Hoc spm).
    apply rbind_no_panic.
    { apply blanks_np. intros [id q] Hq. apply (Permutation_in _ Hoc) in Hq. apply (In_mget _ _ _ Ss) in Hq.
      assert (Hbe : beside s cid prev id) by (apply Hk; apply mget_Some_in; eauto). destruct (Hbes id Hbe) as (l' & (Hsp' & _ & if0 & Y & b' & g' & E1 & E2 & E3 & E4) & Hne').
      assert (if0 = iface) by congruence. subst if0.
      exact (blank_for_np H D P s ch od method layer (df_name D iface) prev id q l' Y b' g' Hsane (spent_state_get _ _ _ _ _ _ Espm Hq) Hsp' E3 E2 E4 Hne'). }
    intros blanks _.
    assert (Hfit : inputs_fit l).
    { intros me. destruct (winv_sel _ _ _ _ _ _ _ _ _ _ _ _ _ me W1) as (O & Sd & _).
      assert (ND : NoDup (map fst (map snd (with_method me (listed od cid m))))).
      { rewrite map_map. change (NoDup (map in_out (with_method me (listed od cid m)))). apply NoDup_map_filter.
        eapply Permutation_NoDup; [apply Permutation_map, Permutation_sym; exact Hl|apply Hsp]. }
      pose proof (side_inputs_le _ _ _ _ _ _ _ Sd ND) as Q. rewrite len_map in Q. rewrite <- (len_perm _ _ (with_method_perm me _ _ Hl)). exact Q. }
    assert (Hside : forall me, exists O, side X cid tt (sel (keqb me method) w') (df_tags D g) O (map snd (with_method me (listed od cid m)))).
    { clear Hiff Hr. destruct (owned_state inv) as [|amt|al|]; cbn [pay] in Ep; try discriminate.
      - destruct (pay_amount_ok _ _ _ _ _ _ _ _ _ _ _ _ _ _ _ _ _ W1 Ep) as (_ & _ & change & bp & bc & _ & Hs). intros me. destruct (Hs me) as (O & _ & Sd). eauto.
      - unfold pay_data in Ep. destruct (existsb _ _); [|discriminate].
        apply wk_call_ok in Ep as (b1 & Eb & ->). intros me. destruct (winv_sel _ _ _ _ _ _ _ _ _ _ _ _ _ me W1) as (O & Sd & _). fold (sel (wk_data_main w) w) in Eb.
        destruct (wk_data_main w), (keqb me method) eqn:Ek; cbn [sel wk_main wk_alt] in *; eauto; eexists; exact (side_data _ _ _ _ _ _ _ _ _ _ _ _ Sd Eb). }
    assert (Hpo : forall me f, (forall x, f x = keqb (os_method x) me) -> has_inputs (sel (keqb me method) w') = match with_method me l with [] => false | _ => true end /\
      (with_method me l <> [] -> exists i, finish H P od (sel (keqb me method) w') (outputs_with od cid m f) = Ok i)).
    { intros me f Hf. destruct (Hside me) as (O & Sd). pose proof (with_method_perm me _ _ Hl) as Hlm. split.
      + rewrite (side_inputs _ _ _ _ _ _ _ Sd). destruct (with_method me (listed od cid m)) as [|y q] eqn:Ey.
        * apply Permutation_nil in Hlm. rewrite Hlm. reflexivity.
        * cbn. destruct (with_method me l); [|reflexivity]. apply Permutation_sym, Permutation_nil in Hlm. discriminate.
      + intros Hne. eapply (finish_can X Hs255 H P od cid tt _ (df_tags D g) O (with_method me (listed od cid m)) (df_tags D g) m l me f HP Ho W Hpm Hf).
        * intros En. apply Hne. rewrite En in Hlm. apply Permutation_nil in Hlm. exact Hlm.
        * exact Hlm.
        * rewrite (len_perm _ _ Hlm). apply Hfit.
        * exact Sd.
        * intros x Hx. apply In_with_method in Hx as [Hx _]. exact (Hinl x Hx). }
    destruct (Hpo method (of_method method) (fun _ => eq_refl)) as [I1 F1].
    destruct (Hpo (other method) (fun x => negb (of_method method x)) (fun x => eq_sym (other_keqb (os_method x) method))) as [I2 F2].
    rewrite keqb_refl in I1, F1. replace (keqb (other method) method) with false in I2, F2 by (destruct method; reflexivity). cbn [sel] in I1, F1, I2, F2.
    rewrite I1, I2. destruct (with_method method l) as [|x1 q1] eqn:M1, (with_method (other method) l) as [|x2 q2] eqn:M2; [discriminate| | |].
    + destruct (F2 ltac:(discriminate)) as (i2 & E2). cbn [rbind fst snd]. rewrite E2. discriminate.
    + destruct (F1 ltac:(discriminate)) as (i1 & E1). cbn [rbind fst snd]. rewrite E1. discriminate.
    + destruct (F1 ltac:(discriminate)) as (i1 & E1), (F2 ltac:(discriminate)) as (i2 & E2). cbn [rbind fst snd]. rewrite E1. cbn [rbind rmap]. rewrite E2. discriminate.
Qed.
End Props.
Print Assumptions C84_payable.
Print Assumptions C84_order.
Print Assumptions C84_reason.
Print Assumptions C84_little.
Print Assumptions C84_answers.


(** *** An example: two contracts on two outputs with different closing methods *)
Notation px_stock := (cx_stock cx_l cx_l' cx_l').
Notation px_invoice amt := (cx_invoice (BlindedSeal 33) (ISAmount amt) None).
Lemma px_sane : sane cx_defs bx_pedersen cx_orders.
Proof. split; [exact cx_orders_ok|]. split; [exact cx_small|]. discriminate. Qed.
Lemma px_schema (X : BuildCtx) l : bc_schema X = bx_schema ->
  forallb (fun x => match mget (in_ty x) (fs_owned bx_schema), in_state x with
                    | Some OsFungible, RAmount _ _ t => match latest [(10, 77)] (in_ty x) with Some t' => t =? t' | None => false end
                    | Some OsDeclarative, RVoid | Some (OsStructured _), RData _ _ | Some (OsAttachment _), RAttach _ _ => true | _, _ => false end) l = true ->
  forall x, In x l -> in_schema X [(10, 77)] x.
Proof.
  intros Hs Hb x Hx. rewrite forallb_forall in Hb. specialize (Hb x Hx). split.
  - rewrite Hs. destruct (mget (in_ty x) (fs_owned bx_schema)) as [os|]; [|discriminate]. exists os. split; [reflexivity|]. destruct os, (in_state x); try discriminate Hb; exact I.
  - intros v b tag Es. rewrite Es in Hb. destruct (mget (in_ty x) (fs_owned bx_schema)) as [[]|]; try discriminate Hb. destruct (latest [(10, 77)] (in_ty x)) as [t|]; [|discriminate Hb].
    apply N.eqb_eq in Hb. congruence.
Qed.
Lemma px_ready amt : ready cx_defs px_stock (px_invoice amt) cx_prev 600 20 10 cx_l.
Proof.
  split; [apply cx_asks|]. split; [exact cx_spent|]. split; [vm_compute; discriminate|].
  destruct (transition_builder cx_defs (sk_stash px_stock) 600 (df_name cx_defs (lit "A"%string)) (option_map (df_name cx_defs) (InvoiceModel.operation (px_invoice amt)))) as [[X b]|e|] eqn:E.
  2: { exfalso. vm_compute in E. discriminate E. }
  2: { exfalso. vm_compute in E. discriminate E. }
  exists (lit "A"%string), X, b, (cx_genesis 600). split; [reflexivity|]. split; [reflexivity|]. split; [exact E|].
  destruct (transition_builder_ok _ _ _ _ _ _ _ E) as (g & si & i & im & tt' & _ & _ & _ & _ & B5 & _). apply px_schema; [exact B5|reflexivity].
Qed.
Lemma px_beside id : beside px_stock 600 cx_prev id -> id = 700.
Proof.
  intros [Hi Hne]. assert (E : contracts_assigning (sk_index px_stock) (sfrom (map os_outpoint cx_prev)) = [600; 600; 700; 700]) by (vm_compute; reflexivity).
  rewrite E in Hi. destruct Hi as [<-|[<-|[<-|[<-|[]]]]]; first [contradiction|reflexivity].
Qed.
Lemma px_ready' amt : ready_beside cx_defs px_stock (px_invoice amt) cx_prev 700 cx_l'.
Proof.
  split; [exact cx_spent'|]. split; [eexists; reflexivity|].
  destruct (blank_builder cx_defs (sk_stash px_stock) 700 (df_name cx_defs (lit "A"%string))) as [[X b]|e|] eqn:E.
  2: { exfalso. vm_compute in E. discriminate E. }
  2: { exfalso. vm_compute in E. discriminate E. }
  exists (lit "A"%string), X, b, (cx_genesis 700). split; [reflexivity|]. split; [reflexivity|]. split; [exact E|].
  destruct (blank_builder_ok _ _ _ _ _ _ E) as ((r & B5) & _). apply px_schema; [exact B5|reflexivity].
Qed.
Lemma px_payable amt : amt <= 55 -> payable cx_defs px_stock cx_apart (px_invoice amt) cx_prev None 50%Z 600 10 cx_l.
Proof.
  intros Ha. constructor.
  - vm_compute. discriminate.
  - reflexivity.
  - split; [exact Ha|]. vm_compute. discriminate.
  - discriminate.
  - intros []; vm_compute; discriminate.
  - intros x Hx _. cbn in Hx. destruct Hx as [<-|[<-|[<-|[<-|[<-|[]]]]]]; vm_compute; discriminate.
  - intros id l' Hb Hsp. apply px_beside in Hb. subst id. pose proof (spent_same px_stock 700 cx_prev _ _ cx_spent' Hsp) as Hp. split; [|split].
    + intros ->. apply Permutation_sym, Permutation_nil in Hp. discriminate.
    + intros me. rewrite <- (len_perm _ _ (with_method_perm me _ _ Hp)). destruct me; vm_compute; discriminate.
    + intros x Hx. apply (Permutation_in _ (Permutation_sym Hp)) in Hx. cbn in Hx. destruct Hx as [<-|[<-|[]]]; vm_compute; discriminate.
  - intros ids ND Hids. assert (Q : len ids <= len [700]) by (apply len_incl; [exact ND|]; intros id Hi; left; symmetry; exact (px_beside id (Hids id Hi))).
    eapply N.le_trans; [exact Q|]. vm_compute. discriminate.
Qed.
Example C84_nonvacuous :
  sane cx_defs bx_pedersen cx_orders /\
  ready cx_defs px_stock (px_invoice 40) cx_prev 600 20 10 cx_l /\
  (forall id, beside px_stock 600 cx_prev id -> exists l', ready_beside cx_defs px_stock (px_invoice 40) cx_prev id l' /\ l' <> []) /\
  beside px_stock 600 cx_prev 700 /\
  payable cx_defs px_stock cx_apart (px_invoice 40) cx_prev None 50%Z 600 10 cx_l /\
  (exists batch, cx_compose false cx_apart cx_l cx_l' cx_l' (px_invoice 40) cx_prev TapretFirst None = Ok batch) /\
  cx_compose false cx_apart cx_l cx_l' cx_l' (px_invoice 60) cx_prev TapretFirst None = Err InsufficientState /\
  cx_compose false (cx_same None) cx_l cx_l' cx_l' (px_invoice 40) cx_prev TapretFirst None <> Panic /\
  ~ payable cx_defs px_stock (cx_same None) (px_invoice 40) cx_prev None 50%Z 600 10 cx_l.
Proof.
  assert (Hb : forall amt id, beside px_stock 600 cx_prev id -> exists l', ready_beside cx_defs px_stock (px_invoice amt) cx_prev id l' /\ l' <> []).
  { intros amt id Hi. apply px_beside in Hi. subst id. exists cx_l'. split; [apply px_ready'|discriminate]. }
  split; [exact px_sane|]. split; [apply px_ready|]. split; [apply Hb|]. split; [split; [vm_compute; auto|discriminate]|]. split; [apply px_payable; discriminate|]. split.
  - apply (C84_payable bit_hashes cx_defs bx_pedersen false px_stock cx_apart cx_orders (px_invoice 40) cx_prev TapretFirst None 7 50%Z 600 20 10 cx_l px_sane (px_ready 40)).
    + intros id Hi. destruct (Hb 40 id Hi) as (l' & Q & _). eauto.
    + apply px_payable. discriminate.
  - split.
    + pose proof (px_payable 0 ltac:(discriminate)) as [_ _ _ Q4 Q5 Q6 _ _].
      apply (C84_little bit_hashes cx_defs bx_pedersen false px_stock cx_apart cx_orders (px_invoice 60) cx_prev TapretFirst None 7 50%Z 600 20 10 cx_l px_sane (px_ready 60) Q4 Q5);
        [vm_compute; discriminate|reflexivity|exact Q6|vm_compute; reflexivity].
    + split.
      * intros E. pose proof (C84_answers bit_hashes cx_defs bx_pedersen false px_stock (cx_same None) cx_orders (px_invoice 40) cx_prev TapretFirst None 7 50%Z 600 20 10 cx_l
          px_sane (px_ready 40) (Hb 40) I ltac:(eexists; split; [left; reflexivity|reflexivity])) as Q. unfold cx_compose in E. rewrite E in Q. exact Q.
      * intros [_ _ [_ Q] _ _ _ _ _]. apply Q. vm_compute. reflexivity.
Qed.
