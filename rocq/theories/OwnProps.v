(** * C88: a payment which was composed can be recorded

    What [compose] gives shows no global state and only seals on the chain of the invoice, and
    its contracts are known to the stock: of the reasons for which recording can be refused only
    those about the witness transaction, about room and about earlier calls are left. *)
From Verif Require Import Base Str StM Core Ser MergeSpec ContainerModel ContainerSpec.
From Verif Require Import PIndexModel StateModel StateSpec StashModel StashSpec StockModel.
From Verif Require Import InvoiceModel IfaceModel BuilderModel BuilderProofs ComposeModel ComposeSpec ComposeProofs ComposeMain ComposeBlank WhereSpec WhereProofs.
From Verif Require Import ConsignSpec ConsignProps FasciaProps AcceptSpec RecordSpec RecordProps StashAgain StashProps StockProofs StockAgain StockProps ListedProps BuilderProps ComposeProps FoundProps PayProps BuilderSpec PIndexSpec.
Local Open Scope N_scope.

(** ** Specification *)

(** The fascia has transitions of the batch only, under their contracts; each bundle shows some,
    all of them named by its input map, and no transition is in two bundles. *)
Record made_of (H : Hashes) (batch : Batch) (f : Fascia) : Prop := {
  mo_named : forall cid b, In (cid, b) (fascia_bundles f) -> b_known b <> [] /\ all_named b;
  mo_moves : forall cid o, In (cid, o) (moves f) -> op_contract o = cid /\ exists i, In i (batch_iter batch) /\ ti_transition i = o;
  mo_bundles : NoDup (map (fun p => bundle_id H (snd p)) (fascia_bundles f));
  mo_ops : NoDup (map (fun m => op_id H (snd m)) (moves f))
}.
(** Nothing of it was seen before. *)
Record unseen (H : Hashes) (s : Stock) (f : Fascia) : Prop := {
  us_witness : mget (fascia_witness_id f) (st_witnesses (sk_stash s)) = None;
  us_bundles : forall cid b, In (cid, b) (fascia_bundles f) -> mget (bundle_id H b) (mi_bundle_contract (sk_index s)) = None;
  us_ops : forall cid o, In (cid, o) (moves f) -> mget (op_id H o) (mi_op_bundle (sk_index s)) = None
}.
Record record_room {OG : OrdKey GlobalOut} (H : Hashes) (s : Stock) (f : Fascia) : Prop := {
  ro_index : facts_room (sk_index s) (fascia_facts H f);
  ro_moves : moves_room (sk_state s) (moves f);
  ro_witness : witness_space (sk_state s);
  ro_stash : len (st_bundles (sk_stash s)) + len (fascia_bundles f) <= U32MAX /\ len (st_witnesses (sk_stash s)) < U32MAX
}.

(** ** A builder without global state *)
Definition clean (cid : N) (b : TrBuilder) : Prop := tb_contract b = cid /\ ob_global (tb_builder b) = [].
Definition quiet (c : TCall) : Prop :=
  match c with TAssetTagRaw _ _ | TInput _ _ | TOwnedRaw _ _ _ | TFungibleRaw _ _ _ _ | TDataRaw _ _ _ _ => True | _ => False end.

Lemma rights_clean X b ty x b' : add_rights_raw X b ty x = Ok b' -> ob_global b' = ob_global b.
Proof.
  intros E. unfold add_rights_raw in E. apply rbind_ok in E as (sc & _ & E). destruct sc; try discriminate E.
  repeat match type of E with rbind _ _ = _ => apply rbind_ok in E as (? & ? & E) end; injection E as <-; reflexivity.
Qed.
Lemma fungible_clean X b ty x v b' : add_fungible_raw X b ty x v = Ok b' -> ob_global b' = ob_global b.
Proof.
  intros E. unfold add_fungible_raw in E. apply rbind_ok in E as (sc & _ & E). destruct sc; try discriminate E.
  apply rbind_ok in E as (m & _ & E). injection E as <-. reflexivity.
Qed.
Lemma data_clean X b ty x v b' : add_data_raw X b ty x v = Ok b' -> ob_global b' = ob_global b.
Proof.
  intros E. unfold add_data_raw in E. apply rbind_ok in E as (sc & _ & E). destruct sc; try discriminate E.
  apply rbind_ok in E as (m & _ & E). injection E as <-. reflexivity.
Qed.
Lemma attachment_clean X b ty x v b' : add_attachment_raw X b ty x v = Ok b' -> ob_global b' = ob_global b.
Proof.
  intros E. unfold add_attachment_raw in E. apply rbind_ok in E as (sc & _ & E). destruct sc; try discriminate E.
  apply rbind_ok in E as (m & _ & E). injection E as <-. reflexivity.
Qed.
Lemma set_clean cid b (r : result BuilderError OpBuilder) b' : clean cid b -> (forall ob, r = Ok ob -> ob_global ob = ob_global (tb_builder b)) ->
  (let! ob := r in Ok (tb_set b ob)) = Ok b' -> clean cid b'.
Proof. intros [C1 C2] Hr E. apply rbind_ok in E as (ob & E & Eb). injection Eb as <-. split; [exact C1|]. cbn. rewrite (Hr _ E). exact C2. Qed.

Lemma clean_call X cid b c b' : quiet c -> clean cid b -> t_call X b c = Ok b' -> clean cid b'.
Proof.
  intros Q C E. destruct c; try destruct Q; cbn [t_call] in E.
  - apply rmap_ok in E as (ob & Eo & ->). destruct C as [C1 C2]. split; [exact C1|]. cbn. rewrite <- C2. unfold add_asset_tag_raw in Eo. destruct (mhas _ _); [discriminate|].
    apply rbind_ok in Eo as (m & _ & Eo). injection Eo as <-. reflexivity.
  - unfold add_input in E. repeat match type of E with rbind _ _ = _ => apply rbind_ok in E as (? & ? & E) end. injection E as <-. exact C.
  - unfold tb_add_owned_raw in E. apply rbind_ok in E as (u & _ & E). eapply set_clean; [exact C| |exact E]. intros ob Eo. unfold add_owned_raw in Eo. destruct st.
    + eapply rights_clean, Eo.
    + apply rbind_ok in Eo as (t & _ & Eo). destruct (_ =? _); [|discriminate]. eapply fungible_clean, Eo.
    + eapply data_clean, Eo.
    + eapply attachment_clean, Eo.
  - unfold tb_add_fungible_raw in E. apply rbind_ok in E as (u & _ & E).
    eapply set_clean; [exact C| |exact E]. intros ob Eo. eapply fungible_clean, Eo.
  - unfold tb_add_data_raw in E. eapply set_clean; [exact C| |exact E]. intros ob Eo. eapply data_clean, Eo.
Qed.
Lemma clean_new cid ty : clean cid (tb_new cid ty).
Proof. split; reflexivity. Qed.
Lemma clean_tags X cid l : forall b b', clean cid b -> add_tags X b l = Ok b' -> clean cid b'.
Proof.
  unfold add_tags. induction l as [|p l IH]; intros b b' C E; cbn [rfold] in E; [injection E as <-; exact C|]. apply rbind_ok in E as (b1 & E1 & E).
  eapply IH; [|exact E]. destruct (t_call X b _) as [b2| |] eqn:Ec; try discriminate E1. injection E1 as <-. eapply clean_call; [|exact C|exact Ec]. exact Logic.I.
Qed.

Definition plain (cid : N) (i : TransitionInfo) : Prop := op_contract (ti_transition i) = cid /\ op_globals (ti_transition i) = [].
Lemma clean_finish H P od cid b outs i : clean cid b -> finish H P od b outs = Ok i -> plain cid i.
Proof.
  intros [C1 C2] E. unfold finish in E. apply rbind_ok in E as (t & Ec & E). unfold complete_transition in Ec.
  destruct (complete _ _ _ _) as [m| |]; cbn [rbind co_builder rmap_err] in Ec; try discriminate Ec. injection Ec as <-.
  destruct (transition_info_new H _ outs) as [i'| |] eqn:Ei; try discriminate. injection E as ->.
  unfold transition_info_new in Ei. destruct outs; [discriminate|]. destruct (_ <? _); [discriminate|]. destruct (existsb _ _); [discriminate|].
  injection Ei as <-. split; assumption.
Qed.

Section Compose.
Context (H : Hashes) (D : Defs) (P : Pedersen) (wrap : bool) (s : Stock) (ch : Choices) (od : Orders) (method : CloseMethod) (layer : Layer1).

Section Work.
Context (X : BuildCtx) (cid a : N).
Definition wclean (w : Work) : Prop := clean cid (wk_main w) /\ clean cid (wk_alt w).
Lemma wk_call_clean main c w w' : quiet c -> wclean w -> wk_call X main c w = Ok w' -> wclean w'.
Proof.
  intros Q [Cm Ca] E. apply wk_call_ok in E as (b & Eb & ->). destruct main; split; cbn [wk_main wk_alt]; try assumption; eapply clean_call; try exact Eb; assumption.
Qed.
Lemma spend_clean lookup w x w' : wclean w -> spend D wrap s ch X method layer cid a lookup w x = Ok w' -> wclean w'.
Proof.
  intros W E. destruct x as [seal [o st]]. unfold spend in E. apply rbind_ok in E as (w1 & E1 & E).
  assert (W1 : wclean w1) by (eapply wk_call_clean; [|exact W|exact E1]; exact Logic.I). clear W E1.
  destruct (negb (oo_ty o =? a)).
  - apply rbind_ok in E as (out & _ & E). eapply wk_call_clean; [|exact W1|exact E]. exact Logic.I.
  - destruct st as [|v bl tag|v salt|f salt]; try (injection E as <-; exact W1).
    apply rbind_ok in E as (sum & _ & E). apply rbind_ok in E as (sum' & _ & E). injection E as <-. exact W1.
Qed.
Lemma spends_clean lookup l : forall w w', wclean w -> rfold (spend D wrap s ch X method layer cid a lookup) w l = Ok w' -> wclean w'.
Proof.
  induction l as [|x l IH]; intros w w' W E; cbn [rfold] in E; [injection E as <-; exact W|]. apply rbind_ok in E as (w1 & E1 & E).
  eapply IH; [|exact E]. eapply spend_clean; eassumption.
Qed.
Lemma opt_clean (c : bool) main x v bl w w' : wclean w -> (if c then wk_call X main (TFungibleRaw a x v bl) w else Ok w) = Ok w' -> wclean w'.
Proof. intros W E. destruct c; [|injection E as <-; exact W]. eapply wk_call_clean; [|exact W|exact E]. exact Logic.I. Qed.
Lemma pay_clean ben st w w' : wclean w -> pay D wrap s ch X method layer cid a ben st w = Ok w' -> wclean w'.
Proof.
  intros W E. destruct st as [|amt|al|]; cbn [pay] in E; try discriminate.
  - unfold pay_amount in E. destruct (_ <? _); [discriminate|]. apply rbind_ok in E as (sm & _ & E).
    cbv zeta in E. revert E. destruct (if sm <? amt then _ else _) as [pm pa]. intros E.
    apply rbind_ok in E as (w1 & E1 & E). apply (opt_clean _ _ _ _ _ _ _ W) in E1. apply rbind_ok in E as (w2 & E2 & E). apply (opt_clean _ _ _ _ _ _ _ E1) in E2.
    apply rbind_ok in E as (change & _ & E).
    apply rbind_ok in E as (w3 & E3 & E). apply (opt_clean _ _ _ _ _ _ _ E2) in E3. exact (opt_clean _ _ _ _ _ _ _ E3 E).
  - unfold pay_data in E. destruct (existsb _ _); [|discriminate]. eapply wk_call_clean; [|exact W|exact E]. exact Logic.I.
Qed.
End Work.

Lemma blanks_spend_clean X id l : forall w w', clean id (fst w) /\ clean id (snd w) ->
  rfold (blank_spend D s ch X method layer id) w l = Ok w' -> clean id (fst w') /\ clean id (snd w').
Proof.
  induction l as [|[seal [o st]] l IH]; intros w w' [S1 S2] E; cbn [rfold] in E; [injection E as <-; auto|].
  apply rbind_ok in E as (w1 & E1 & E). eapply IH; [|exact E]. clear E IH. unfold blank_spend in E1. apply rbind_ok in E1 as (out & _ & E1). cbv zeta in E1.
  assert (Hs : forall b b', clean id b ->
    (let! b := co_builder (t_call X b (TInput o st)) in co_builder (t_call X b (TOwnedRaw (oo_ty o) out st))) = Ok b' -> clean id b').
  { intros b b' Sb Eb. apply rbind_ok in Eb as (b1 & Eb1 & Eb2).
    assert (Ec1 : t_call X b (TInput o st) = Ok b1) by (destruct (t_call X b (TInput o st)); cbn in Eb1; congruence).
    assert (Ec2 : t_call X b1 (TOwnedRaw (oo_ty o) out st) = Ok b') by (destruct (t_call X b1 (TOwnedRaw (oo_ty o) out st)); cbn in Eb2; congruence).
    eapply clean_call; [|eapply clean_call; [|exact Sb|exact Ec1]|exact Ec2]; exact Logic.I. }
  destruct (os_method seal); apply rbind_ok in E1 as (b & Eb & E1); injection E1 as <-; cbn [fst snd]; split; try assumption; (eapply Hs; [|exact Eb]; assumption).
Qed.

Lemma blank_builder_clean id iface X b : blank_builder D (sk_stash s) id iface = Ok (X, b) ->
  clean id b /\ mget id (st_geneses (sk_stash s)) <> None.
Proof.
  intros E. unfold blank_builder in E. apply rbind_ok in E as (si & _ & E). apply rbind_ok in E as (i & _ & E). destruct (si_impls si); [discriminate|].
  apply rbind_ok in E as (g & Eg & E). apply rbind_ok in E as (ex & _ & E). apply rbind_ok in E as (q & _ & E). cbv zeta in E.
  apply rbind_ok in E as (b0 & E5 & E). apply Ok_inj in E. injection E as <- <-. split; [eapply clean_tags; [apply clean_new|exact E5]|].
  unfold stash_genesis in Eg. destruct (mget id (st_geneses (sk_stash s))); [discriminate|discriminate Eg].
Qed.
Lemma blank_for_clean iface p d : blank_for H D P s ch od method layer iface p = Ok d ->
  mget (fst p) (st_geneses (sk_stash s)) <> None /\ forall i, In i (di_iter d) -> plain (fst p) i.
Proof.
  intros E. destruct p as [id m]. unfold blank_for in E. apply rbind_ok in E as ([X b] & Eb & E). rewrite Eb in E. cbn [rbind fst snd] in *.
  apply rbind_ok in E as (w & Ew & E). apply rbind_ok in E as (infos & Ei & E).
  destruct (blank_builder_clean _ _ _ _ Eb) as [Cb Hg]. split; [exact Hg|].
  apply (blanks_spend_clean X id) in Ew; [|split; exact Cb].
  assert (Hi : forall i, In i infos -> plain id i).
  { assert (Hl : forall l acc infos, (forall b o, In (b, o) l -> clean id b) ->
                rfold (fun acc q => let (b, outputs) := q : TrBuilder * list OutSeal in
                  if has_inputs b then let! i := finish H P od b outputs in Ok (acc ++ [i]) else Ok acc) acc l = Ok infos ->
                (forall i, In i acc -> plain id i) -> forall i, In i infos -> plain id i).
    { clear. induction l as [|[b o] l IH]; intros acc infos Hs E Ha; cbn [rfold] in E; [injection E as <-; exact Ha|].
      apply rbind_ok in E as (acc' & E1 & E). eapply IH; [intros b' o' Hin; eapply Hs; right; exact Hin|exact E|].
      destruct (has_inputs b); [|injection E1 as <-; exact Ha].
      apply rbind_ok in E1 as (i & E1 & E2). injection E2 as <-. intros j Hj. apply in_app_or in Hj as [Hj|[<-|[]]]; [apply Ha, Hj|].
      eapply clean_finish; [eapply Hs; left; reflexivity|exact E1]. }
    eapply Hl; [|exact Ei|intros i []]. intros b' o [Eq|[Eq|[]]]; injection Eq as <- _; apply Ew. }
  intros i Hd. apply Hi. destruct infos as [|i1 [|i2 [|i3 q]]]; cbn in E; try discriminate; injection E as <-; exact Hd.
Qed.
Lemma transition_builder_clean cid iface name X b : transition_builder D (sk_stash s) cid iface name = Ok (X, b) ->
  clean cid b /\ mget cid (st_geneses (sk_stash s)) <> None.
Proof.
  intros E. unfold transition_builder in E. apply rbind_ok in E as (si & _ & E). apply rbind_ok in E as (i & _ & E). apply rbind_ok in E as (im & _ & E).
  apply rbind_ok in E as (g & Eg & E). apply rbind_ok in E as (ex & _ & E). cbv zeta in E. apply rbind_ok in E as (b0 & E0 & E).
  apply rbind_ok in E as (b1 & E1 & E). apply Ok_inj in E. injection E as <- <-. split.
  - eapply clean_tags; [|exact E1].
    destruct (match name with Some n => named_transition _ cid n | None => default_transition _ cid end) as [b2| |] eqn:En; try discriminate E0. injection E0 as <-.
    destruct name; [unfold named_transition in En|unfold default_transition in En]; apply rbind_ok in En as (ty & _ & En); injection En as <-; apply clean_new.
  - unfold stash_genesis in Eg. destruct (mget cid (st_geneses (sk_stash s))); [discriminate|discriminate Eg].
Qed.
End Compose.

Lemma plain_nonce p d cid : (forall i, In i (di_iter d) -> plain cid i) -> forall i, In i (di_iter (set_pair_nonce p d)) -> plain cid i.
Proof.
  intros Hd i Hi. destruct d as [x [y|]]; cbn in Hi.
  - destruct Hi as [<-|[<-|[]]]; [apply (Hd x)|apply (Hd y)]; cbn; auto.
  - destruct Hi as [<-|[]]. apply (Hd x). cbn. auto.
Qed.

(** Every transition of a composed batch is one of a contract which the stock has, and has no
    global state. *)
Lemma compose_plain H D P wrap s ch od inv prev method vout priority now batch :
  compose H D P wrap s ch od inv prev method vout priority now = Ok batch ->
  forall i, In i (batch_iter batch) -> exists cid, mget cid (st_geneses (sk_stash s)) <> None /\ plain cid i.
Proof.
  intros E. set (layer := layer1 (chain_network (beneficiary inv))). unfold compose in E. cbv zeta in E. fold layer in E.
  destruct (match expiry inv with Some t => (t <? now)%Z | None => false end); [discriminate|].
  apply rbind_ok in E as (cid & Ec & E). apply rbind_ok in E as (iface & Ei & E).
  apply rbind_ok in E as ([X b] & Eb & E). cbn [fst snd] in E. apply rbind_ok in E as (a & Ea & E).
  rewrite Eb in E. cbn [rbind fst snd] in E. apply rbind_ok in E as (ben & _ & E). apply rbind_ok in E as (m & _ & E). apply rbind_ok in E as (w & Ew & E).
  apply rbind_ok in E as (w' & Ew' & E). apply rbind_ok in E as (spm & _ & E). apply rbind_ok in E as (blanks & Ebl & E).
  apply rbind_ok in E as (builders & Ebu & E). apply rbind_ok in E as (first & Ef & E). apply rbind_ok in E as (second & Es & E). apply Ok_inj in E.
  apply transition_builder_clean in Eb as [Cb Hg].
  apply (spends_clean D wrap s ch method layer X cid a) in Ew; [|split; exact Cb]. apply (pay_clean D wrap s ch method layer X cid a) in Ew'; [|exact Ew].
  subst batch. intros i Hi. unfold batch_iter in Hi. apply in_flat_map in Hi as (d & Hd & Hi). cbn [set_priority ba_main ba_blanks] in Hd.
  apply in_app_or in Hd as [Hd|[<-|[]]].
  - apply in_map_iff in Hd as (d0 & <- & Hd). unfold blanks_for in Ebl. destruct (blanks_for_ok _ _ _ _ _ _ _ _ _ _ _ _ Ebl) as (ds & -> & F). cbn [app] in Hd.
    assert (Hd0 : exists q, blank_for H D P s ch od method layer iface q = Ok d0).
    { clear -F Hd. induction F as [|q d ps ds Ed F IH]; [destruct Hd|]. destruct Hd as [->|Hd]; [exists q; exact Ed|apply IH, Hd]. }
    destruct Hd0 as (q & Ed). destruct (blank_for_clean _ _ _ _ _ _ _ _ _ _ _ Ed) as [Hq Hp]. exists (fst q). split; [exact Hq|]. revert i Hi. apply plain_nonce, Hp.
  - exists cid. split; [exact Hg|]. revert i Hi. apply plain_nonce.
    destruct Ew' as [Cm Ca].
    assert (Hb : clean cid (fst (fst builders)) /\ match snd builders with Some (b2, _) => clean cid b2 | None => True end).
    { revert Ebu. destruct (has_inputs (wk_main w')), (has_inputs (wk_alt w')); intros Ebu; try discriminate Ebu; injection Ebu as <-; cbn [fst snd]; auto. }
    destruct Hb as [Hb1 Hb2]. intros i [<-|Hi]; [eapply clean_finish; [exact Hb1|exact Ef]|]. cbn [di_second] in Hi.
    destruct (snd builders) as [[b2 o2]|]; [|injection Es as <-; destruct Hi]. apply rmap_ok in Es as (j & Es & ->). destruct Hi as [<-|[]].
    eapply clean_finish; [exact Hb2|exact Es].
Qed.

(** ** A composed payment, put into a transaction of the chain of the invoice, is recorded. *)
Theorem C88_composed : forall (OG : OrdKey GlobalOut) H K D P wrap s ch od inv prev method vout priority now batch f r,
  collision_free H -> reachable H K s -> orders_ok od -> schemata_small D ->
  compose H D P wrap s ch od inv prev method vout priority now = Ok batch ->
  stock_call_ok H (SkFascia f r) -> made_of H batch f ->
  w_layer (fascia_witness_id f) = layer1 (chain_network (beneficiary inv)) ->
  r (fascia_witness_id f) <> None -> unseen H s f -> record_room H s f ->
  snd (fascia_body H f r s) = Ok tt.
Proof.
  intros OG H K D P wrap s ch od inv prev method vout priority now batch f r HC Re Ho Hsm E Okf [M1 M2 M3 M4] Hl Hr [U1 U2 U3] [R1 R2 R3 R4].
  pose proof (compose_plain _ _ _ _ _ _ _ _ _ _ _ _ _ _ E) as Hp.
  destruct (compose_placed _ _ _ _ _ _ _ _ _ _ _ _ _ _ Ho Hsm E) as [Pm Pb].
  assert (Hin : forall cid b id t, In (cid, b) (fascia_bundles f) -> In (id, t) (b_known b) -> In (cid, t) (moves f)).
  { intros cid b id t Hb Ht. unfold moves. apply in_flat_map. exists (cid, b). split; [exact Hb|]. apply in_map_iff. exists (id, t). auto. }
  assert (Hid : forall cid b id t, In (cid, b) (fascia_bundles f) -> In (id, t) (b_known b) -> id = op_id H t).
  { intros cid b id t Hb Ht. specialize (Okf (cid, b)). cbn in Okf. destruct (Okf Hb) as (((Hk & Sk & _) & _) & _). symmetry. apply Hk. apply In_mget; assumption. }
  assert (Bun : forall p q, In p (fascia_bundles f) -> In q (fascia_bundles f) -> bundle_id H (snd p) = bundle_id H (snd q) -> p = q).
  { clear -M3. induction (fascia_bundles f) as [|x l IH]; intros p q Hp Hq Ee; [destruct Hp|]. cbn [map] in M3. apply NoDup_cons_iff in M3 as [Nx M3].
    destruct Hp as [->|Hp], Hq as [->|Hq]; [reflexivity| | |apply IH; assumption].
    - destruct Nx. apply in_map_iff. exists q. auto.
    - destruct Nx. apply in_map_iff. exists p. auto. }
  apply C88_recorded_partial with (K := K); try assumption.
  - constructor; try assumption.
    + intros cid b Hb. apply (M1 cid b Hb).
    + intros cid b Hb. destruct (M1 cid b Hb) as [Hne _]. destruct (b_known b) as [|[id t] q] eqn:Ek; [destruct (Hne eq_refl)|].
      assert (Hm : In (cid, t) (moves f)) by (apply (Hin cid b id); [exact Hb|rewrite Ek; left; reflexivity]).
      destruct (M2 cid t Hm) as (Ec & i & Hi & Et). destruct (Hp i Hi) as (cid' & Hg & Hc & _). rewrite Et, Ec in Hc. subst cid'.
      destruct (listed_known H HC K s cid Re Hg) as [I1 (ci & I2)]. split; [rewrite I2; discriminate|].
      cbn in I1. destruct (mget cid (ms_contracts (sk_state s))); [discriminate|]. destruct I1 as (x & I1). discriminate I1.
    + intros bid a b (p & Hpi & A) (q & Hqi & B). 
      assert (Ha : bid = bundle_id H (snd p) /\ a = fst p).
      { destruct A as [A|[A|(opid & t & _ & [A|(ty & no & x & _ & [(y & out & _ & _ & A)|(sec & _ & A)])])]]; try discriminate A. injection A as -> ->. auto. }
      assert (Hb : bid = bundle_id H (snd q) /\ b = fst q).
      { destruct B as [A'|[A'|(opid & t & _ & [A'|(ty & no & x & _ & [(y & out & _ & _ & A')|(sec & _ & A')])])]]; try discriminate A'. injection A' as -> ->. auto. }
      destruct Ha as [-> ->], Hb as [Eb ->]. f_equal. apply Bun; assumption.
    + intros opid a b (p & Hpi & A) (q & Hqi & B).
      assert (Ha : exists t, In (opid, t) (b_known (snd p)) /\ a = bundle_id H (snd p)).
      { destruct A as [A|[A|(opid' & t & Ht & [A|(ty & no & x & _ & [(y & out & _ & _ & A)|(sec & _ & A)])])]]; try discriminate A. injection A as -> ->. eauto. }
      assert (Hb : exists t, In (opid, t) (b_known (snd q)) /\ b = bundle_id H (snd q)).
      { destruct B as [A'|[A'|(opid' & t & Ht & [A'|(ty & no & x & _ & [(y & out & _ & _ & A')|(sec & _ & A')])])]]; try discriminate A'. injection A' as -> ->. eauto. }
      destruct Ha as (t & Ht & ->), Hb as (t' & Ht' & ->). f_equal. f_equal.
      pose proof (Hid (fst p) (snd p) opid t ltac:(rewrite <- surjective_pairing; exact Hpi) Ht) as E1.
      pose proof (Hid (fst q) (snd q) opid t' ltac:(rewrite <- surjective_pairing; exact Hqi) Ht') as E2.
      clear -M4 Hpi Hqi Ht Ht' E1 E2. unfold moves in M4. revert M4 Hpi Hqi. induction (fascia_bundles f) as [|x l IH]; intros M4 Hpi Hqi; [destruct Hpi|].
      cbn [flat_map] in M4. rewrite map_app in M4. 
      assert (Dis : forall y, In y (map (fun m => op_id H (snd m)) (map (fun q : N * Operation => (fst x, snd q)) (b_known (snd x)))) ->
        ~ In y (map (fun m => op_id H (snd m)) (flat_map (fun p : N * Bundle => map (fun q : N * Operation => (fst p, snd q)) (b_known (snd p))) l))).
      { clear -M4. induction (map _ (map _ _)) as [|z r IH]; intros y Hy; [destruct Hy|]. cbn [app] in M4. apply NoDup_cons_iff in M4 as [Nz M4].
        destruct Hy as [->|Hy]; [|apply IH; assumption]. intros C. apply Nz, in_or_app. right. exact C. }
      assert (At : forall (q : N * Bundle) t, In q l -> In (opid, t) (b_known (snd q)) -> opid = op_id H t -> In opid (map (fun m => op_id H (snd m)) (flat_map (fun p : N * Bundle => map (fun q : N * Operation => (fst p, snd q)) (b_known (snd p))) l))).
      { intros z u Hz Hu Eu. apply in_map_iff. exists (fst z, u). split; [symmetry; exact Eu|]. apply in_flat_map. exists z. split; [exact Hz|]. apply in_map_iff. exists (opid, u). auto. }
      assert (Ah : forall u, In (opid, u) (b_known (snd x)) -> opid = op_id H u -> In opid (map (fun m => op_id H (snd m)) (map (fun q : N * Operation => (fst x, snd q)) (b_known (snd x))))).
      { intros u Hu Eu. apply in_map_iff. exists (fst x, u). split; [symmetry; exact Eu|]. apply in_map_iff. exists (opid, u). auto. }
      destruct Hpi as [->|Hpi], Hqi as [->|Hqi].
      * reflexivity.
      * destruct (Dis opid); [eapply Ah; eassumption|eapply At; eassumption].
      * destruct (Dis opid); [eapply Ah; eassumption|eapply At; eassumption].
      * apply IH; [|assumption..]. clear -M4. induction (map _ (map _ _)) as [|z r IH]; [exact M4|]. cbn [app] in M4. apply NoDup_cons_iff in M4 as [_ M4]. apply IH, M4.
    + intros _. exact Hr.
    + intros ([cid o] & ty & no & x & y & Hm & (ta & Hta & Hn) & Ey & Hno). cbn [snd] in *. destruct (M2 cid o Hm) as (_ & i & Hi & Et).
      assert (Hy : at_payment (layer1 (chain_network (beneficiary inv))) y).
      { assert (Hmade : In (ty, x) (made (ti_transition i))).
        { rewrite Et. unfold made. apply in_flat_map. exists (ty, ta). split; [exact Hta|]. apply in_map_iff. exists x. split; [reflexivity|]. eapply nth_error_In, Hn. }
        unfold batch_iter in Hi. apply in_flat_map in Hi as (d & Hd & Hi).
        assert (Hx : to_payer (layer1 (chain_network (beneficiary inv))) method x \/ to_beneficiary D (layer1 (chain_network (beneficiary inv))) vout (xcn_into_inner (beneficiary inv)) x).
        { apply in_app_or in Hd as [Hd|[<-|[]]]; [left; exact (Pb d i _ Hd Hi Hmade)|exact (Pm i _ Hi Hmade)]. }
        destruct x as [c z|z z0|c z|z z0]; cbn in Ey; try discriminate Ey; injection Ey as ->.
        - destruct Hx as [[]|Hx]. cbn in Hx. destruct (xcn_into_inner (beneficiary inv)); destruct Hx.
        - destruct Hx as [Hx|Hx]; [apply Hx|]. cbn in Hx. destruct (xcn_into_inner (beneficiary inv)); [destruct Hx|apply Hx]. }
      destruct Hy as [Y1 Y2].
      apply (Hno {| os_method := s_method y; os_layer := s_layer y; os_txid := w_txid (fascia_witness_id f); os_vout := s_vout y |}).
      unfold seal_output. cbn [os_method os_layer os_txid os_vout]. rewrite Y2. do 3 (split; [reflexivity|]). split; [reflexivity|]. rewrite Y1. exact Hl.
    + intros ([cid o] & ty & vals & cs & Hm & Hg & _). cbn [snd] in Hg. destruct (M2 cid o Hm) as (_ & i & Hi & Et).
      destruct (Hp i Hi) as (cid' & _ & _ & Eg). rewrite Et in Eg. rewrite Eg in Hg. destruct Hg.
  - constructor.
    + intros bid alt cid (p & Hpi & A) Hs.
      destruct A as [A|[A|(opid & t & _ & [A|(ty & no & x & _ & [(y & out & _ & _ & A)|(sec & _ & A)])])]]; try discriminate A. injection A as -> ->.
      cbn in Hs. rewrite (U2 (fst p) (snd p)) in Hs; [discriminate Hs|]. rewrite <- surjective_pairing. exact Hpi.
    + intros opid alt bid (p & Hpi & A) Hs.
      destruct A as [A|[A|(opid' & t & Ht & [A|(ty & no & x & _ & [(y & out & _ & _ & A)|(sec & _ & A)])])]]; try discriminate A. injection A as -> ->.
      assert (Hb : In (fst p, snd p) (fascia_bundles f)) by (rewrite <- surjective_pairing; exact Hpi).
      cbn in Hs. rewrite (Hid _ _ _ _ Hb Ht), (U3 (fst p) t) in Hs; [discriminate Hs|]. exact (Hin _ _ _ _ Hb Ht).
    + intros old Eo. rewrite U1 in Eo. discriminate Eo.
    + intros old m x y Eo. rewrite U1 in Eo. discriminate Eo.
Qed.

(** The hypotheses of [C88_composed] hold for the payment of C68: two transitions of the invoiced
    contract and two blank ones in four bundles. *)
Example C88_composed_nonvacuous : forall OG : OrdKey GlobalOut, exists batch,
  let f := py_fascia batch in
  collision_free bit_hashes /\ reachable bit_hashes cn_merkle py_payer /\ orders_ok cx_orders /\ schemata_small cx_defs /\
  compose bit_hashes cx_defs bx_pedersen false py_payer cx_apart cx_orders py_invoice cx_prev TapretFirst None 7 50%Z = Ok batch /\
  stock_call_ok bit_hashes (SkFascia f yes_witness) /\ made_of bit_hashes batch f /\
  w_layer (fascia_witness_id f) = layer1 (chain_network (beneficiary py_invoice)) /\
  yes_witness (fascia_witness_id f) <> None /\ unseen bit_hashes py_payer f /\ record_room bit_hashes py_payer f /\
  len (moves f) = 4.
Proof.
  intros OG.
  destruct (compose bit_hashes cx_defs bx_pedersen false py_payer cx_apart cx_orders py_invoice cx_prev TapretFirst None 7 50%Z) as [batch| |] eqn:E;
    [|exfalso; vm_compute in E; discriminate E|exfalso; vm_compute in E; discriminate E].
  vm_compute in E. injection E as E. exists batch. cbv zeta.
  split; [exact bit_collision_free|]. split; [exact py_reachable|]. split; [exact cx_orders_ok|]. split; [exact cx_small|]. split; [reflexivity|].
  split.
  { assert (Hb : forallb (fun p => bundle_okb bit_hashes (snd p)) (fascia_bundles (py_fascia batch)) = true) by (subst batch; vm_compute; reflexivity).
    rewrite forallb_forall in Hb. intros p Hp. apply bundle_okb_ok, Hb, Hp. }
  split; [|split; [reflexivity|split; [discriminate|split; [|split]]]].
  - constructor.
    + intros cid b Hb.
      assert (B : forallb (fun p => negb (match b_known (snd p) with [] => true | _ => false end) && known_subset (snd p)) (fascia_bundles (py_fascia batch)) = true) by (subst batch; vm_compute; reflexivity).
      rewrite forallb_forall in B. specialize (B _ Hb). cbn [snd] in B. apply andb_prop in B as [B1 B2]. split; [destruct (b_known b); [discriminate B1|discriminate]|apply known_subset_ok, B2].
    + assert (Em : moves (py_fascia batch) = map (fun i => (op_contract (ti_transition i), ti_transition i)) (batch_iter batch)) by (subst batch; vm_compute; reflexivity).
      intros cid o Hm. rewrite Em in Hm. apply in_map_iff in Hm as (i & Ei & Hi). injection Ei as <- <-. split; [reflexivity|]. exists i. auto.
    + apply nodupb_ok; subst batch; vm_compute; reflexivity.
    + apply nodupb_ok; subst batch; vm_compute; reflexivity.
  - constructor.
    + subst batch. vm_compute. reflexivity.
    + intros cid b Hb.
      assert (B : forallb (fun p => negb (mhas (bundle_id bit_hashes (snd p)) (mi_bundle_contract (sk_index py_payer)))) (fascia_bundles (py_fascia batch)) = true) by (subst batch; vm_compute; reflexivity).
      rewrite forallb_forall in B. specialize (B _ Hb). cbn [snd] in B. apply mhas_false. destruct (mhas _ _); [discriminate B|reflexivity].
    + intros cid o Hm.
      assert (B : forallb (fun m => negb (mhas (op_id bit_hashes (snd m)) (mi_op_bundle (sk_index py_payer)))) (moves (py_fascia batch)) = true) by (subst batch; vm_compute; reflexivity).
      rewrite forallb_forall in B. specialize (B _ Hm). cbn [snd] in B. apply mhas_false. destruct (mhas _ _); [discriminate B|reflexivity].
  - constructor.
    + apply facts_room_small. subst batch. vm_compute. discriminate.
    + apply moves_room_small. subst batch. vm_compute. discriminate.
    + unfold witness_space. vm_compute. discriminate.
    + subst batch. split; vm_compute; congruence.
  - subst batch. vm_compute. reflexivity.
Qed.

(** Without the condition on the chain it is not so: see [C82_consume_panics_refuted]; without that
    on earlier calls see [C88_recorded_refuted]. *)
Print Assumptions C88_composed.
Print Assumptions C88_composed_nonvacuous.
