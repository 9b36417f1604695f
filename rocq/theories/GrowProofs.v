(** * Proofs about what stays exportable *)
From Verif Require Import Base StM Core ContainerModel ContainerSpec ContainerProofs PIndexModel PIndexSpec PIndexProofs.
From Verif Require Import MergeModel MergeSpec MergeProofs StateModel StateSpec StateProofs StashModel StashSpec StashProofs StashAgain StockModel StockAgain StockProofs.
From Verif Require Import SupplySpec SupplyProps FasciaProps LedgerSpec LedgerProofs AgreeSpec AgreeProofs ConsignModel ConsignSpec ConsignProofs ConsignAccept ReplicaSpec ReplicaProofs ReplicaMore.
From Verif Require Import ExportSpec ExportProofs GrowSpec.
Local Open Scope N_scope.

(** ** The capacity for witnesses *)

Section Room.
Context (H : Hashes) (K : Merkle).
Definition room (s : MemStash) : Prop := len (st_witnesses s) <= U32MAX.

Lemma consume_witness_room w s s' r : consume_witness w s = (s', r) -> room s -> room s'.
Proof.
  unfold consume_witness, bind, get, lift. destruct (mget (sw_id w) (st_witnesses s)) as [old|].
  - destruct (merge_xpub _ _) as [p|e|]; cbn [rmap_err]; [|intros E; injection E as <- _; auto|intros E; injection E as <- _; auto].
    destruct (merge_anchors _ _) as [a|e|]; cbn [rmap_err]; [|intros E; injection E as <- _; auto|intros E; injection E as <- _; auto].
    unfold ret, replace_witness, bind, get, grown, lift, put. destruct (cinsert _ _ _ _) as [m|] eqn:Ec; cbn [ok_or]; intros E; injection E as <- _; [|auto].
    intros _. apply cinsert_inv in Ec as [-> L]. apply len_insert_max, L.
  - unfold ret, replace_witness, bind, get, grown, lift, put. destruct (cinsert _ _ _ _) as [m|] eqn:Ec; cbn [ok_or]; intros E; injection E as <- _; [|auto].
    intros _. apply cinsert_inv in Ec as [-> L]. apply len_insert_max, L.
Qed.
Lemma wb_room cid wb s s' : consume_witness_bundle H K cid wb s = (s', Ok tt) -> room s -> room s'.
Proof.
  unfold consume_witness_bundle, bind. destruct (anchor_all H K cid _ s) as [s1 [r|e|]] eqn:E1; try discriminate.
  destruct (anchors_of r s1) as [s2 [a|e|]] eqn:E2; try discriminate. destruct (anchors_of_pure r s1 s2 a E2) as [-> Pa].
  destruct (consume_witness _ s1) as [s3 [b|e|]] eqn:E3; try discriminate. unfold ret. intros E. injection E as <-.
  apply anchor_all_witnesses in E1. intros R. eapply consume_witness_room; [exact E3|]. unfold room. rewrite E1. exact R.
Qed.
Lemma wbs_room cid l : forall s s', mfor (consume_witness_bundle H K cid) l s = (s', Ok tt) -> room s -> room s'.
Proof.
  induction l as [|wb l IH]; intros s s' E R; cbn [mfor] in E; [injection E as <-; exact R|].
  unfold bind in E. destruct (consume_witness_bundle H K cid wb s) as [s1 [[]|e|]] eqn:E1; try discriminate.
  exact (IH _ _ E (wb_room _ _ _ _ E1 R)).
Qed.
Lemma call_room x s : snd (stash_call H K x s) = Ok tt -> room s -> room (fst (stash_call H K x s)).
Proof.
  intros E R. destruct x as [c|k|w|b|y|id lv]; cbn [stash_call] in *.
  - destruct (consume_consignment H K c s) as [s' r] eqn:Ec. cbn [fst snd] in *. subst r. unfold consume_consignment in Ec. cbv zeta in Ec.
    unfold bind at 1 in Ec. destruct (consume_genesis H _ s) as [sa [ua|e|]] eqn:Ea; try discriminate. apply genesis_witnesses in Ea.
    unfold bind at 1 in Ec. destruct (mfor (consume_extension H) _ sa) as [sb [ub|e|]] eqn:Eb; try discriminate.
    apply (mfor_witnesses _ _ (extension_witnesses H)) in Eb.
    unfold bind at 1 in Ec. destruct (mfor (consume_witness_bundle H K _) _ sb) as [sc [[]|e|]] eqn:Ew; try discriminate.
    apply wbs_room in Ew; [|unfold room; rewrite Eb, Ea; exact R].
    unfold bind at 1 in Ec. destruct (mfor _ (c_attachments c) sc) as [sd [ud|e|]] eqn:Ed; try discriminate.
    apply (mfor_witnesses _ (c_attachments c)) in Ed.
    2:{ intros p t t' r. unfold replace_attachment, bind, get, grown, lift, put, ret. destruct (cinsert _ _ _ _); cbn [ok_or]; intros X; injection X as <- _; reflexivity. }
    destruct (kit_success _ _ _ Ec) as [I _]. destruct (ki_rest _ _ _ I) as (_ & _ & _ & Q & _). unfold room. rewrite Q, Ed. exact Ew.
  - destruct (consume_kit k s) as [s' r] eqn:Ec. cbn [fst snd] in *. subst r. destruct (kit_success _ _ _ Ec) as [I _]. destruct (ki_rest _ _ _ I) as (_ & _ & _ & Q & _).
    unfold room. rewrite Q. exact R.
  - unfold bind, ret in *. destruct (consume_witness w s) as [s1 [z|e|]] eqn:Eb; cbn [fst snd] in *; try discriminate. exact (consume_witness_room _ _ _ _ Eb R).
  - unfold bind, ret in *. destruct (consume_bundle H b s) as [s1 [z|e|]] eqn:Eb; cbn [fst snd] in *; try discriminate.
    unfold room. rewrite (consume_bundle_witnesses H b s s1 _ Eb). exact R.
  - revert E. unfold store_secret_seal, add_secret_seal, bind, get, grown, lift, put, ret. destruct (cpush _ _ _); cbn; try discriminate; auto.
  - revert E. unfold set_trust, bind, get, grown, lift, put. destruct (cinsert _ _ _ _); cbn; try discriminate; auto.
Qed.
Lemma calls_room l : forall s, stash_all_succeed H K s l -> room s -> room (stash_after H K s l).
Proof.
  induction l as [|x l IH]; intros s Su R; [exact R|]. destruct Su as [E Su]. unfold stash_after. cbn [fold_left].
  change (fold_left _ l ?u) with (stash_after H K u l). apply IH; [exact Su|]. exact (call_room x s E R).
Qed.

(** *** A witness is made for each which a consignment brings. *)
Lemma wbs_put_all cid l : forall s s', mfor (consume_witness_bundle H K cid) l s = (s', Ok tt) -> forall wb, In wb l -> exists w, wb_put H K cid wb w.
Proof.
  induction l as [|x l IH]; intros s s' E wb Hb; cbn [mfor] in E; [destruct Hb|].
  unfold bind in E. destruct (consume_witness_bundle H K cid x s) as [s1 [[]|e|]] eqn:E1; try discriminate.
  destruct Hb as [<-|Hb]; [|exact (IH _ _ E wb Hb)]. destruct (wb_puts H K _ _ _ _ E1) as (w & Hw & _). eauto.
Qed.
Lemma consignment_puts c s : snd (stash_call H K (ShConsignment c) s) = Ok tt -> forall wb, In wb (c_bundles c) -> exists w, wb_put H K (contract_id H (c_genesis c)) wb w.
Proof.
  cbn [stash_call]. destruct (consume_consignment H K c s) as [s' r] eqn:Ec. cbn [snd]. intros ->. unfold consume_consignment in Ec. cbv zeta in Ec.
  unfold bind at 1 in Ec. destruct (consume_genesis H _ s) as [sa [ua|e|]] eqn:Ea; try discriminate.
  unfold bind at 1 in Ec. destruct (mfor (consume_extension H) _ sa) as [sb [ub|e|]] eqn:Eb; try discriminate.
  unfold bind at 1 in Ec. destruct (mfor (consume_witness_bundle H K _) _ sb) as [sc [[]|e|]] eqn:Ew; try discriminate.
  exact (wbs_put_all _ _ _ _ Ew).
Qed.
Lemma calls_put c l : forall s, stash_all_succeed H K s l -> In (ShConsignment c) l ->
  forall wb, In wb (c_bundles c) -> exists w, wb_put H K (contract_id H (c_genesis c)) wb w.
Proof.
  induction l as [|x l IH]; intros s Su Hx; [destruct Hx|]. destruct Su as [E Su].
  destruct Hx as [->|Hx]; [exact (consignment_puts c s E)|exact (IH _ Su Hx)].
Qed.
End Room.

(** ** Bundles are kept *)

Section Kept.
Context (H : Hashes) (HC : collision_free H) (K : Merkle).

Definition holds_all (b : Bundle) (s : MemStash) : Prop :=
  exists u, mget (bundle_id H b) (st_bundles s) = Some u /\ covers H u b /\ forall k, mget k (b_known b) = None -> mget k (b_known u) = None.

Lemma covers_self b : bundle_wf H b -> covers H b b.
Proof. intros W k x E. exists x. split; [exact E|]. apply merge_op_idem. apply W in E. exact E. Qed.

Lemma holds_all_kept b s s' : bundle_wf H b -> upd (careful H) H s s' -> good H s -> holds_all b s -> holds_all b s'.
Proof.
  intros Wb U Go (st & E & M & D). unfold holds_all. destruct U; simpl; eauto.
  - rewrite mget_insert. destruct (keqb _ _) eqn:Kk; [|eauto]. apply keqb_true in Kk. congruence.
  - assert (Wo : bundle_wf H old) by (eapply go_bundle; eassumption).
    pose proof (merge_bundle_id H _ _ _ H2) as Ei.
    assert (Eo : bundle_id H old = bundle_id H b0) by (eapply fi_bundle; [apply Go|eassumption]).
    rewrite mget_insert. destruct (keqb _ _) eqn:Kk; [|eauto]. apply keqb_true in Kk.
    assert (E3 : bundle_id H b = bundle_id H b0) by congruence.
    rewrite E3, H1 in E. apply Some_inj in E as <-. exists b'. split; [reflexivity|].
    destruct (merge_bundle_get H HC _ _ _ Wo (proj1 H0) H2) as (_ & _ & Wr & _ & Gr). split.
    + intros k x Ex. destruct (M k x Ex) as (y & Ey & My). specialize (Gr k). rewrite Ey in Gr.
      destruct (mget k (b_known b0)) as [z|].
      * destruct Gr as (v & Ev & Gv). exists v. split; [exact Gv|]. eapply merge_op_still; [exact HC| |exact My|exact Ev]. apply Wo in Ey. exact Ey.
      * eauto.
    + intros k Ek. specialize (Gr k). rewrite (D k Ek) in Gr. destruct (mget k (b_known b0)); exact Gr.
Qed.

Lemma calls_hold b l : bundle_wf H b -> forall s, good H s -> (forall x, In x l -> call_ok H x) -> holds_all b s -> holds_all b (stash_after H K s l).
Proof.
  intros Wb. induction l as [|x l IH]; intros s Go Ok Q; [exact Q|]. unfold stash_after. cbn [fold_left].
  change (fold_left _ l ?u) with (stash_after H K u l). assert (Ox : call_ok H x) by (apply Ok; left; reflexivity).
  apply IH; [apply (stash_good H K HC x s Ox Go)|intros y Hy; apply Ok; right; exact Hy|].
  refine (kept_call H HC K (holds_all b) x s _ _ Ox Go Q); [|auto]. intros a a'. apply holds_all_kept, Wb.
Qed.
End Kept.

(** ** What a history of successful calls leaves *)

Section Stocks.
Context {OG : OrdKey GlobalOut} (H : Hashes) (HC : collision_free H) (K : Merkle).

(** What the index is told by a call, the stash is told as well. *)
Lemma fed_any l : forall s, all_calls_succeed H K s l -> exists ix sh,
  let s' := stock_after H K s l in
  (all_succeed H (sk_index s) ix /\ sk_index s' = index_calls H ix (sk_index s) /\
   forall x, In x ix -> exists c s0, In c l /\ index_of H c s0 x /\ forall y, stash_of H c s0 y -> In y sh) /\
  (stash_all_succeed H K (sk_stash s) sh /\ sk_stash s' = stash_after H K (sk_stash s) sh /\
   forall x, In x sh -> exists c s0, In c l /\ stash_of H c s0 x).
Proof.
  induction l as [|call l IH]; intros s Su.
  - exists [], []. split; (split; [exact Logic.I|]); (split; [reflexivity|]); intros x [].
  - destruct Su as [E Su]. destruct (stock_body H K call s) as [s1 e] eqn:Eb. cbn [fst snd] in *. subst e.
    destruct (fed H K call s s1 Eb) as (ix1 & sh1 & (A1 & B1 & C1) & (A2 & B2 & C2)).
    destruct (IH s1 Su) as (ix2 & sh2 & (A3 & B3 & C3) & (A4 & B4 & C4)).
    exists (ix1 ++ ix2), (sh1 ++ sh2). unfold stock_after. cbn [fold_left]. rewrite Eb. cbn [fst].
    change (fold_left _ l s1) with (stock_after H K s1 l). cbv zeta. split.
    + split; [apply all_succeed_app; split; [exact A1|rewrite <- B1; exact A3]|].
      split; [rewrite B3, B1, index_calls_app; reflexivity|]. intros x Hx. apply in_app_or in Hx as [Hx|Hx].
      * exists call, s. split; [left; reflexivity|]. split; [apply C1, Hx|]. intros y Hy. apply in_or_app. left. apply C2, Hy.
      * destruct (C3 x Hx) as (c & s0 & Hc & I0 & S0). exists c, s0. split; [right; exact Hc|]. split; [exact I0|].
        intros y Hy. apply in_or_app. right. apply S0, Hy.
    + split; [apply stash_succeed_app; split; [exact A2|rewrite <- B2; exact A4]|].
      split; [rewrite B4, B2; unfold stash_after; rewrite fold_left_app; reflexivity|]. intros x Hx. apply in_app_or in Hx as [Hx|Hx].
      * exists call, s. split; [left; reflexivity|apply C2, Hx].
      * destruct (C4 x Hx) as (c & s0 & Hc & S0). exists c, s0. split; [right; exact Hc|exact S0].
Qed.

(** Each bundle is stored, with each witness it was seen with and an anchor there for it. *)
Record supported (s : Stock) : Prop := {
  sp_witness : forall bid w, states (sk_index s) (FWitness bid w) -> exists cid b sw an,
    states (sk_index s) (FBundle bid cid) /\ mget bid (st_bundles (sk_stash s)) = Some b /\ mget w (st_witnesses (sk_stash s)) = Some sw /\
    of_method (b_method b) (sw_anchors sw) = Some an /\ mget cid (an_known an) = Some bid;
  sp_room : len (st_witnesses (sk_stash s)) <= U32MAX
}.

Lemma same_method b b' : bundle_id H b = bundle_id H b' -> b_method b = b_method b' /\ b_inputs b = b_inputs b'.
Proof. intros E. unfold bundle_id in E. destruct HC as (_ & _ & _ & Hb). exact (Hb _ _ _ _ E). Qed.

Lemma anchors_of_into r a mt an : NoDup (map fst r) -> (forall s, anchors_of r s = (s, Ok a)) -> In (mt, an) r -> of_method mt a = Some an.
Proof.
  intros Nd E Hr. specialize (E st_empty). unfold anchors_of in E. apply in_rev in Hr. apply NoDup_rev in Nd. rewrite <- map_rev in Nd.
  destruct (rev r) as [|[[] x] [|[[] y] [|[[] z] q]]]; unfold ret, panic in E; try discriminate; injection E as <-; cbn in Nd;
    try (exfalso; rewrite !NoDup_cons_iff in Nd; cbn in Nd; tauto); cbn in Hr; intuition (try discriminate);
    match goal with X : (_, _) = (_, _) |- _ => injection X as <- <-; reflexivity end.
Qed.

Lemma anchor_vals_into cid l : forall r, anchor_vals H K cid l = Some r ->
  map fst r = map (fun p => dp_method (ea_dbc (fst p))) l /\
  forall p, In p l -> exists an, In (dp_method (ea_dbc (fst p)), an) r /\ an_known an = [(cid, bundle_id H (snd p))].
Proof.
  induction l as [|p l IH]; intros r E; cbn [anchor_vals] in E.
  - apply Some_inj in E. subst r. split; [reflexivity|intros p []].
  - destruct (mk_with _ _ _ _) as [root|]; [|discriminate]. destruct (anchor_vals H K cid l) as [r'|] eqn:Er; [|discriminate].
    apply Some_inj in E. subst r. destruct (IH r' eq_refl) as [A B]. split; [cbn; rewrite A; reflexivity|].
    intros q [<-|Hq]; [eexists; split; [left; reflexivity|reflexivity]|]. destruct (B q Hq) as (an & Ha & Hk). exists an. split; [right; exact Ha|exact Hk].
Qed.

(** A consignment with secrets resolved has the bundles it had, with their anchors. *)
Lemma resolved_wb t c c' r wb' : ledger_call_ok H (SkAccept c r) -> resolve_secrets H t c = Ok c' -> In wb' (c_bundles c') ->
  c_genesis c' = c_genesis c /\ exists wb, In wb (c_bundles c) /\ wb_id wb' = wb_id wb /\
  (forall p, In p (anchored_iter (wb_bundles wb')) -> exists b0, carries (wb_bundles wb) (fst p) b0 /\ bundle_id H (snd p) = bundle_id H b0) /\
  NoDup (map (fun p => b_method (snd p)) (anchored_iter (wb_bundles wb'))).
Proof.
  intros [Ok [Mt Mo]] Er Hb'. unfold resolve_secrets in Er. destruct (reveal_terminal_seals_ok H _ c c' HC Mt Mo Er) as [Ec F].
  destruct (Forall2_r _ _ _ _ F Hb') as (wb & Hb & W1 & W2). split; [rewrite Ec; reflexivity|]. exists wb. split; [exact Hb|].
  split; [unfold wb_id; rewrite W1; reflexivity|]. pose proof (Mo wb Hb) as M.
  assert (Rv : forall u u' : Bundle, terminal_revealed H (fun secret => Base.Ok (seal_secret H t secret) : result StashError _) (c_terminals c) u u' -> bundle_id H u' = bundle_id H u).
  { intros u u'. unfold terminal_revealed. destruct (mget _ _); [|intros ->; reflexivity]. destruct (seal_secret _ _ _); intros ->; reflexivity. }
  destruct (wb_bundles wb) as [x|x|x o], (wb_bundles wb') as [x'|x'|x' o']; cbn [anchored_rel methods_ok] in W2, M; try contradiction; unfold client_rel in W2; cbn [anchored_iter map snd fst].
  - destruct W2 as (A & B & C). split; [|repeat constructor; intros []]. intros p [<-|[]]. exists (cb_bundle x). cbn [fst snd]. split; [|apply Rv, C].
    replace (cb_anchor x') with (cb_anchor x) by (unfold cb_anchor; congruence). constructor.
  - destruct W2 as (A & B & C). split; [|repeat constructor; intros []]. intros p [<-|[]]. exists (cb_bundle x). cbn [fst snd]. split; [|apply Rv, C].
    replace (cb_anchor x') with (cb_anchor x) by (unfold cb_anchor; congruence). constructor.
  - destruct W2 as ((A & B & C) & (D & E & F')), M as [M1 M2]. split.
    + intros p [<-|[<-|[]]]; cbn [fst snd].
      * exists (cb_bundle x). split; [|apply Rv, C]. replace (cb_anchor x') with (cb_anchor x) by (unfold cb_anchor; congruence). constructor.
      * exists (cb_bundle o). split; [|apply Rv, F']. replace (cb_anchor o') with (cb_anchor o) by (unfold cb_anchor; congruence). constructor.
    + destruct (same_method _ _ (Rv _ _ C)) as [X _], (same_method _ _ (Rv _ _ F')) as [Y _]. constructor; [|repeat constructor; intros []].
      cbn [In map snd] in *. intros [Z|[]]. cbn in Z. congruence.
Qed.

Lemma after_supported l : (forall c, In c l -> ledger_call_ok H c) -> (forall f r, In (SkFascia f r) l -> anchor_wf (fa_anchor f)) ->
  all_calls_succeed H K sk_empty l -> well_anchored H l -> one_message H l -> supported (stock_after H K sk_empty l).
Proof.
  intros Hok Wf Su [Wa Wfa] Om. destruct (fed_any l sk_empty Su) as (ix & sh & (A1 & B1 & C1) & (A2 & B2 & C2)).
  cbn [sk_index sk_stash sk_empty] in *.
  assert (Oc : forall x, In x sh -> call_ok H x).
  { intros x Hx. destruct (C2 x Hx) as (c & s0 & Hc & Sx). exact (stash_of_fine H c s0 x (Hok c Hc) Sx). }
  destruct (all_brought H HC K sh st_empty (good_empty H) Oc A2) as [Go Br].
  destruct (calls_puts H K sh st_empty A2) as (ws & Hw & P). cbn [st_witnesses st_empty] in P.
  assert (Fr : forall w, In w ws -> wit_sorted w /\ brings_tx l (sw_public w) /\
    forall mt an k v, of_method mt (sw_anchors w) = Some an -> mget k (an_known an) = Some v -> brings_message H l (sw_id w) mt k v).
  { intros w X. apply Hw in X as (x & Hx & Px). apply C2 in Hx as (c & s0 & Hc & Sx). exact (stash_of_witness H HC K c _ x w l (Hok c Hc) Hc Wf Sx Px). }
  assert (I0 : wit_inv [] []) by (split; [intros w []|discriminate]).
  assert (Iv : wit_inv ws (st_witnesses (stash_after H K st_empty sh))) by (apply (put_all_inv ws [] [] _ I0); [intros w X; apply Fr, X|exact P]).
  assert (Wx : wf (sk_index (stock_after H K sk_empty l))) by (rewrite B1; apply calls_wf, wf_empty).
  (* an anchor which came with a witness is in the stored one *)
  assert (Main : forall w0 mt an cid bid, In w0 ws -> of_method mt (sw_anchors w0) = Some an -> mget cid (an_known an) = Some bid ->
    exists sw an', mget (sw_id w0) (st_witnesses (stash_after H K st_empty sh)) = Some sw /\ of_method mt (sw_anchors sw) = Some an' /\ mget cid (an_known an') = Some bid).
  { intros w0 mt an cid bid Hw0 Em Ek. destruct Iv as [I1 I2].
    destruct (mget (sw_id w0) (st_witnesses (stash_after H K st_empty sh))) as [sw|] eqn:Es; [|destruct (I1 w0 Hw0 Es)].
    destruct (I2 _ _ Es) as [_ Sm]. destruct (su_into _ _ Sm mt w0 an (conj Hw0 eq_refl) Em) as (an' & Ea & _ & _ & Kn).
    exists sw, an'. split; [reflexivity|]. split; [exact Ea|]. specialize (Kn cid). rewrite Ek in Kn.
    destruct (mget cid (an_known an')) as [v|] eqn:Ev; [|destruct (Kn ltac:(discriminate) eq_refl)].
    destruct (su_known _ _ Sm mt an' cid v Ea Ev) as (w1 & an1 & [Hw1 Ei] & Em1 & Ek1).
    pose proof (proj2 (proj2 (Fr w0 Hw0)) mt an cid bid Em Ek) as M0. pose proof (proj2 (proj2 (Fr w1 Hw1)) mt an1 cid v Em1 Ek1) as M1. rewrite Ei in M1.
    f_equal. exact (Om _ _ _ _ _ M1 M0). }
  split.
  2:{ rewrite B2. apply (calls_room H K sh st_empty A2). unfold room. cbn. discriminate. }
  intros bid w Hs. assert (Hf := Hs). rewrite B1 in Hf. apply calls_sound in Hf; [|apply wf_empty].
  destruct Hf as [(x & X & _)|(x & Hx & An)]; [discriminate X|]. destruct (C1 x Hx) as (c & s0 & Hc & Ix & Sh).
  assert (Fb : forall cid, announces H x (FBundle bid cid) -> states (sk_index (stock_after H K sk_empty l)) (FBundle bid cid)).
  { intros cid Ha. rewrite B1. apply calls_ok; [apply wf_empty|exact A1|]. right. exists x. auto. }
  assert (Gb : forall b y, In y sh -> sh_bundle y b -> exists st, mget (bundle_id H b) (st_bundles (sk_stash (stock_after H K sk_empty l))) = Some st /\ b_method st = b_method b).
  { intros b y Hy Sy. destruct (Br y (or_introl Hy)) as [Q _]. destruct (Q b Sy) as (st & Est & _). exists st. rewrite B2. split; [exact Est|].
    apply same_method. exact (fi_bundle _ _ (go_filed _ _ Go) _ _ Est). }
  destruct c as [c r|f r|k|y|r after|]; cbn [index_of] in Ix; try contradiction.
  - destruct Ix as (c' & Er & ->). assert (Sc : In (ShConsignment c') sh) by (apply Sh; exists c'; auto).
    cbn [announces] in An. destruct An as [X|[(ty & no & a & _ & [(q & out & _ & _ & X)|(q & _ & X)])|[(e & _ & (ty & no & a & _ & [(q & out & _ & _ & X)|(q & _ & X)]))|(wb' & b & Hb' & Hb & Ba)]]]; try discriminate X.
    assert (E : bid = bundle_id H b /\ w = wb_id wb').
    { destruct Ba as [X|[X|(o & t & _ & [X|(ty & no & a & _ & [(q & out & _ & _ & X)|(q & _ & X)])])]]; try discriminate X. injection X as -> ->. auto. }
    destruct E as [-> ->]. destruct (resolved_wb _ _ _ _ wb' (Hok _ Hc) Er Hb') as (Eg & wb & Hwb & Ei & Cr & Nd).
    rewrite anchored_bundles_map in Hb. apply in_map_iff in Hb as (p & <- & Hp).
    destruct (Gb (snd p) (ShConsignment c') Sc) as (st & Est & Emt); [exists wb', p; auto|].
    destruct (calls_put H K c' sh st_empty A2 Sc wb' Hb') as (w0 & Pw). assert (Hw0 : In w0 ws) by (apply Hw; exists (ShConsignment c'); split; [exact Sc|exists wb'; auto]).
    destruct Pw as (rr & a & Ev & Pa & ->). destruct (anchor_vals_into _ _ _ Ev) as [Mr Ir]. destruct (Ir p Hp) as (an & Han & Ek).
    assert (Me : forall q, In q (anchored_iter (wb_bundles wb')) -> dp_method (ea_dbc (fst q)) = b_method (snd q)).
    { intros q Hq. destruct (Cr q Hq) as (b0 & Cb & Ib). rewrite (proj1 (same_method _ _ Ib)). apply (Wa c r (wb_id wb) (fst q) b0 Hc). exists wb. auto. }
    assert (Ma : of_method (b_method (snd p)) a = Some an).
    { rewrite <- (Me p Hp). apply (anchors_of_into rr); [|exact Pa|exact Han]. rewrite Mr. erewrite map_ext_in; [exact Nd|]. intros q Hq. apply Me, Hq. }
    destruct (Main {| sw_public := wb_witness wb'; sw_anchors := a |} (b_method (snd p)) an (op_id H (c_genesis c')) (bundle_id H (snd p)) Hw0 Ma) as (sw & an' & S1 & S2 & S3).
    { rewrite Ek. cbn. unfold contract_id. rewrite keqb_refl. reflexivity. }
    exists (op_id H (c_genesis c')), st, sw, an'. split.
    { apply Fb. cbn [announces]. right; right; right. exists wb', (snd p). split; [exact Hb'|]. split; [rewrite anchored_bundles_map; apply in_map, Hp|left; reflexivity]. }
    split; [exact Est|]. split; [rewrite B2; exact S1|]. rewrite Emt. auto.
  - destruct Ix as ([cid b] & Hp & ->). cbn [fst snd announces] in *.
    assert (E : bid = bundle_id H b /\ w = fascia_witness_id f).
    { destruct An as [X|[X|(o & t & _ & [X|(ty & no & a & _ & [(q & out & _ & _ & X)|(q & _ & X)])])]]; try discriminate X. injection X as -> ->. auto. }
    destruct E as [-> ->]. destruct (Gb b (ShBundle b)) as (st & Est & Emt); [apply Sh; right; exists (cid, b); auto|reflexivity|].
    destruct (Wfa f r cid b Hc Hp) as (an & Em & Ek).
    destruct (Main {| sw_public := fa_witness f; sw_anchors := fa_anchor f |} (b_method b) an cid (bundle_id H b)) as (sw & an' & S1 & S2 & S3).
    { apply Hw. eexists. split; [apply Sh; left; reflexivity|reflexivity]. }
    { exact Em. }
    { exact Ek. }
    exists cid, st, sw, an'. split; [apply Fb; left; reflexivity|]. split; [exact Est|]. split; [rewrite B2; exact S1|]. rewrite Emt. auto.
Qed.
End Stocks.
