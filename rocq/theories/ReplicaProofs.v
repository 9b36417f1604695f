(** * Proofs about stocks to which the same was brought in another order *)
From Verif Require Import Base StM Core ContainerModel ContainerSpec ContainerProofs PIndexModel PIndexSpec PIndexProofs.
From Verif Require Import MergeSpec MergeProofs StateModel StateSpec StashModel StashSpec StashProofs StashAgain StockModel StockAgain StockProofs.
From Verif Require Import SupplySpec FasciaProps LedgerSpec LedgerProofs AgreeSpec ReplicaSpec.
Local Open Scope N_scope.

(** ** Two indexes with the same facts are the same *)

Lemma opt_same {A} (a b : option A) : (forall x, a = Some x <-> b = Some x) -> a = b.
Proof.
  intros E. destruct a as [x|].
  - symmetry. apply E. reflexivity.
  - destruct b as [y|]; [|reflexivity]. apply E. reflexivity.
Qed.

(** Maps of non-empty sets with the same elements are the same. *)
Lemma sets_same {K V} `{OrdKey K} `{OrdKey V} (m m' : omap K (list V)) : msorted m -> msorted m' ->
  (forall k l, mget k m = Some l -> ssorted l /\ l <> []) -> (forall k l, mget k m' = Some l -> ssorted l /\ l <> []) ->
  (forall k v, (exists l, mget k m = Some l /\ In v l) <-> (exists l, mget k m' = Some l /\ In v l)) -> m = m'.
Proof.
  intros S S' P P' E. apply msorted_ext; [exact S|exact S'|]. intros k.
  destruct (mget k m) as [l|] eqn:El, (mget k m') as [l'|] eqn:El'.
  - f_equal. apply ssorted_ext; [apply (P _ _ El)|apply (P' _ _ El')|]. intros v. split; intros Hv.
    + destruct (proj1 (E k v)) as (x & Ex & Hx); [eauto|]. congruence.
    + destruct (proj2 (E k v)) as (x & Ex & Hx); [eauto|]. congruence.
  - exfalso. destruct l as [|v l]; [apply (P _ _ El); reflexivity|].
    destruct (proj1 (E k v)) as (x & Ex & Hx); [exists (v :: l); cbn; auto|]. congruence.
  - exfalso. destruct l' as [|v l']; [apply (P' _ _ El'); reflexivity|].
    destruct (proj2 (E k v)) as (x & Ex & Hx); [exists (v :: l'); cbn; auto|]. congruence.
  - reflexivity.
Qed.

Lemma index_same s s' : wf s -> wf s' -> (forall f, states s f <-> states s' f) -> s = s'.
Proof.
  intros W W' E. destruct s as [a b c d e], s' as [a' b' c' d' e'].
  destruct W as [W1 W2 W3 W4 W5 W6 W7 W8 _], W' as [V1 V2 V3 V4 V5 V6 V7 V8 _]. cbn in *. unfold states in E. cbn in E.
  match goal with |- ?x = ?y => assert (Q : mi_op_bundle x = mi_op_bundle y /\ mi_bundle_contract x = mi_bundle_contract y /\
    mi_bundle_witness x = mi_bundle_witness y /\ mi_contracts x = mi_contracts y /\ mi_terminals x = mi_terminals y) end;
  [|cbn in Q; destruct Q as (-> & -> & -> & -> & ->); reflexivity]. cbn. repeat split.
  - apply msorted_ext; auto. intros k. apply opt_same. intros x. apply (E (FOp k x)).
  - apply msorted_ext; auto. intros k. apply opt_same. intros x. apply (E (FBundle k x)).
  - apply sets_same; auto. intros k v. apply (E (FWitness k v)).
  - apply msorted_ext; auto. intros k.
    match goal with |- mget k ?m = mget k ?m' => destruct (mget k m) as [ci|] eqn:E1, (mget k m') as [ci'|] eqn:E2 end; [| | |reflexivity].
    + destruct (W7 _ _ E1) as (P1 & S1 & Q1), (V7 _ _ E2) as (P2 & S2 & Q2). f_equal.
      destruct ci as [p o], ci' as [p' o']. cbn in *. subst p p'. f_equal.
      apply sets_same; auto. intros out oo. pose proof (E (FOut k out oo)) as F. cbn in F. rewrite E1, E2 in F. split.
      * intros (l & El & Hl). destruct (proj1 F) as (ci & set & Ec & Es & Hi); [eexists; eexists; eauto|]. apply Some_inj in Ec. subst ci. eauto.
      * intros (l & El & Hl). destruct (proj2 F) as (ci & set & Ec & Es & Hi); [eexists; eexists; eauto|]. apply Some_inj in Ec. subst ci. eauto.
    + exfalso. destruct (proj1 (E (PIndexSpec.FContract k))) as (x & Ex); [eauto|]. congruence.
    + exfalso. destruct (proj2 (E (PIndexSpec.FContract k))) as (x & Ex); [eauto|]. congruence.
  - apply sets_same; auto. intros k v. apply (E (FTerm k v)).
Qed.

(** ** Calls which store no seal *)

Section Stocks.
Context {OG : OrdKey GlobalOut} (H : Hashes) (K : Merkle).

Lemma resolve_by_seals s t c : st_seals s = st_seals t -> resolve_secrets H s c = resolve_secrets H t c.
Proof. intros E. unfold resolve_secrets, seal_secret. rewrite E. reflexivity. Qed.
Lemma index_of_seals c s t x : st_seals (sk_stash s) = st_seals (sk_stash t) -> index_of H c s x <-> index_of H c t x.
Proof. intros E. destruct c; cbn [index_of]; try tauto. rewrite (resolve_by_seals _ _ _ E). tauto. Qed.
Lemma stash_of_seals c s t x : st_seals (sk_stash s) = st_seals (sk_stash t) -> stash_of H c s x <-> stash_of H c t x.
Proof. intros E. destruct c; cbn [stash_of]; try tauto. rewrite (resolve_by_seals _ _ _ E). tauto. Qed.

(** What the index and the stash are told by a call *)
Definition feeds (call : StockCall) (s s' : Stock) (ix : list IndexCall) (sh : list StashCall) : Prop :=
  (all_succeed H (sk_index s) ix /\ sk_index s' = index_calls H ix (sk_index s) /\ forall x, In x ix <-> index_of H call s x) /\
  (stash_all_succeed H K (sk_stash s) sh /\ sk_stash s' = stash_after H K (sk_stash s) sh /\ forall x, In x sh <-> stash_of H call s x).

Lemma fed call s s' : stock_body H K call s = (s', Ok tt) -> exists ix sh, feeds call s s' ix sh.
Proof.
  destruct call as [c r|f r|k|x|r after|]; cbn [stock_body]; intros E.
  - apply accept_ok in E as (c' & Er & _ & Ei & Eh). exists [IxConsignment c'], [ShConsignment c'].
    split; cbn [index_calls stash_after fold_left stash_all_succeed all_succeed stash_call].
    + unfold index_calls. cbn [fold_left]. rewrite Ei. split; [split; [eexists; exact Ei|exact Logic.I]|]. split; [reflexivity|].
      intros x. cbn [index_of In]. split; [intros [<-|[]]; eauto|]. intros (c0 & E0 & ->). left. congruence.
    + unfold stash_after. cbn [fold_left stash_call]. rewrite Eh. split; [split; [reflexivity|exact Logic.I]|]. split; [reflexivity|].
      intros x. cbn [stash_of In]. split; [intros [<-|[]]; eauto|]. intros (c0 & E0 & ->). left. congruence.
  - apply (fascia_ok H K) in E. cbv zeta in E. destruct E as (_ & (Ai & Ei) & _ & (Ah & Eh)).
    eexists; eexists. split; (split; [eassumption|]); (split; [eassumption|]); intros x; cbn [index_of stash_of In].
    + rewrite in_map_iff. split; intros (p & A & B); eauto.
    + rewrite in_map_iff. split; (intros [A|(p & A & B)]; [left; symmetry; exact A|right; exists p; auto]).
  - unfold on_stash in E. destruct (consume_kit k (sk_stash s)) as [t e] eqn:Ek. injection E as <- Ee.
    exists [], [ShKit k]. split; cbn [sk_index sk_stash].
    + split; [exact Logic.I|]. split; [reflexivity|]. intros x. cbn. tauto.
    + cbn [stash_all_succeed stash_after fold_left stash_call]. rewrite Ek. cbn [fst snd].
      split; [split; [|exact Logic.I]|split; [reflexivity|]].
      * destruct e as [[]|e|]; cbn in Ee; try discriminate. reflexivity.
      * intros x. cbn [stash_of In]. split; [intros [<-|[]]; reflexivity|intros ->; auto].
  - unfold bind, on_stash in E. destruct (store_secret_seal x (sk_stash s)) as [t e] eqn:Ek. 
    destruct e as [b|e|]; cbn [rmap_err] in E; try discriminate. injection E as <-.
    exists [], [ShSeal x]. split; cbn [sk_index sk_stash].
    + split; [exact Logic.I|]. split; [reflexivity|]. intros y. cbn. tauto.
    + unfold stash_after. cbn [stash_all_succeed fold_left stash_call]. unfold bind. rewrite Ek. cbn [fst snd].
      split; [split; [reflexivity|exact Logic.I]|split; [reflexivity|]].
      intros y. cbn [stash_of In]. split; [intros [<-|[]]; reflexivity|intros ->; auto].
  - unfold bind, on_state in E. destruct (update_witnesses r after (sk_state s)) as [t e] eqn:Eu.
    destruct e as [u|e|]; cbn [rmap_err] in E; try discriminate. injection E as <-. exists [], []. split; cbn [sk_index sk_stash].
    + split; [exact Logic.I|]. split; [reflexivity|]. intros x. cbn. tauto.
    + split; [exact Logic.I|]. split; [reflexivity|]. intros x. cbn. tauto.
  - injection E as <-. exists [], []. split.
    + split; [exact Logic.I|]. split; [reflexivity|]. intros x. cbn. tauto.
    + split; [exact Logic.I|]. split; [reflexivity|]. intros x. cbn. tauto.
Qed.

(** *** Seals are kept by all other calls *)

Lemma keeps_seals sh : (forall x, ~ In (ShSeal x) sh) -> forall t, st_seals (stash_after H K t sh) = st_seals t.
Proof.
  induction sh as [|c sh IH]; intros N t; [reflexivity|]. unfold stash_after. cbn [fold_left].
  change (fold_left _ sh ?u) with (stash_after H K u sh). rewrite IH by (intros x Hx; apply (N x); right; exact Hx).
  destruct c as [c|k|w|b|x|id l]; cbn [stash_call].
  - apply same_seals_consignment.
  - apply same_seals_kit.
  - apply same_seals_bind; [apply same_seals_witness|reflexivity].
  - apply same_seals_bind; [apply same_seals_bundle|reflexivity].
  - destruct (N x). left. reflexivity.
  - unfold set_trust, bind, get, grown, lift, put. destruct (cinsert _ _ _ _); reflexivity.
Qed.

Lemma all_succeed_app s l1 l2 : all_succeed H s (l1 ++ l2) <-> all_succeed H s l1 /\ all_succeed H (index_calls H l1 s) l2.
Proof.
  revert s. induction l1 as [|c l1 IH]; intros s; cbn [app all_succeed index_calls fold_left]; [tauto|].
  rewrite IH. unfold index_calls. cbn [fold_left]. tauto.
Qed.

Lemma fed_all l : forall s, (forall x, ~ In (SkSeal x) l) -> all_calls_succeed H K s l -> exists ix sh,
  let s' := stock_after H K s l in
  (all_succeed H (sk_index s) ix /\ sk_index s' = index_calls H ix (sk_index s) /\
   forall x, In x ix <-> exists c, In c l /\ index_of H c s x) /\
  (stash_all_succeed H K (sk_stash s) sh /\ sk_stash s' = stash_after H K (sk_stash s) sh /\
   forall x, In x sh <-> exists c, In c l /\ stash_of H c s x).
Proof.
  induction l as [|call l IH]; intros s N Su.
  - exists [], []. split; (split; [exact Logic.I|]); (split; [reflexivity|]); intros x; (split; [intros []|intros (c & [] & _)]).
  - destruct Su as [E Su]. destruct (stock_body H K call s) as [s1 e] eqn:Eb. cbn [fst snd] in *. subst e.
    destruct (fed call s s1 Eb) as (ix1 & sh1 & (A1 & B1 & C1) & (A2 & B2 & C2)).
    assert (Sl : st_seals (sk_stash s1) = st_seals (sk_stash s)).
    { rewrite B2. apply keeps_seals. intros x Hx. apply C2 in Hx. destruct call; cbn [stash_of] in Hx; try contradiction; try discriminate.
      - destruct Hx as (c' & _ & X). discriminate.
      - destruct Hx as [X|(p & _ & X)]; discriminate.
      - apply (N x0). left. reflexivity. }
    destruct (IH s1) as (ix2 & sh2 & (A3 & B3 & C3) & (A4 & B4 & C4)); [intros x Hx; apply (N x); right; exact Hx|exact Su|].
    exists (ix1 ++ ix2), (sh1 ++ sh2). unfold stock_after. cbn [fold_left]. rewrite Eb. cbn [fst].
    change (fold_left _ l s1) with (stock_after H K s1 l). cbv zeta. split.
    + split; [apply all_succeed_app; split; [exact A1|rewrite <- B1; exact A3]|].
      split; [rewrite B3, B1, index_calls_app; reflexivity|]. intros x. rewrite in_app_iff, C1, C3. split.
      * intros [X|(c & Hc & X)]; [exists call; split; [left; reflexivity|exact X]|]. exists c. split; [right; exact Hc|].
        apply (index_of_seals c s1 s x Sl), X.
      * intros (c & [->|Hc] & X); [left; exact X|]. right. exists c. split; [exact Hc|]. apply (index_of_seals c s1 s x Sl), X.
    + split; [apply stash_succeed_app; split; [exact A2|rewrite <- B2; exact A4]|].
      split; [rewrite B4, B2; unfold stash_after; rewrite fold_left_app; reflexivity|]. intros x. rewrite in_app_iff, C2, C4. split.
      * intros [X|(c & Hc & X)]; [exists call; split; [left; reflexivity|exact X]|]. exists c. split; [right; exact Hc|].
        apply (stash_of_seals c s1 s x Sl), X.
      * intros (c & [->|Hc] & X); [left; exact X|]. right. exists c. split; [exact Hc|]. apply (stash_of_seals c s1 s x Sl), X.
Qed.

(** *** Storing seals first *)

Definition only_seals (q : oset Seal) : Stock := {| sk_stash := with_seals q st_empty; sk_state := ms_empty; sk_index := mi_empty |}.

Lemma after_seals l : (forall c, In c l -> exists s, c = SkSeal s) -> all_calls_succeed H K sk_empty l -> exists q,
  stock_after H K sk_empty l = only_seals q /\ ssorted q /\ forall x, In x q <-> In (SkSeal x) l.
Proof.
  induction l as [|call l IH] using rev_ind; intros Ha Su.
  - exists []. split; [reflexivity|]. split; [constructor|]. intros x. cbn. tauto.
  - apply all_succeed_snoc in Su as [Su E]. destruct IH as (q & Eq & So & Hq); [intros c Hc; apply Ha, in_or_app; auto|exact Su|].
    destruct (Ha call) as (x & ->); [apply in_or_app; cbn; auto|].
    unfold stock_after. rewrite fold_left_app. cbn [fold_left]. change (fold_left _ l sk_empty) with (stock_after H K sk_empty l). rewrite Eq in *.
    cbn [stock_body] in *. unfold bind, on_stash in *. rewrite StashProps.C50_store in *. cbn [sk_stash only_seals st_seals with_seals] in *.
    destruct (len q <? U24MAX); cbn [rmap_err snd] in *; [|discriminate]. exists (sinsert x q). split; [reflexivity|]. split; [apply sinsert_sorted, So|].
    intros y. rewrite In_sinsert, in_app_iff, Hq. cbn. split; [intros [->|Hy]; auto|]. intros [Hy|[Hy|[]]]; [auto|]. left. congruence.
Qed.

Lemma all_calls_app s l1 l2 : all_calls_succeed H K s (l1 ++ l2) <-> all_calls_succeed H K s l1 /\ all_calls_succeed H K (stock_after H K s l1) l2.
Proof.
  revert s. induction l1 as [|c l1 IH]; intros s; cbn [app all_calls_succeed stock_after fold_left]; [tauto|].
  rewrite IH. unfold stock_after. cbn [fold_left]. tauto.
Qed.

(** What the parts were told by a history which stores seals first *)
Lemma fed_history l : seals_first l -> all_calls_succeed H K sk_empty l -> exists q ix sh,
  ssorted q /\ (forall x, In x q <-> In (SkSeal x) l) /\
  (all_succeed H mi_empty ix /\ sk_index (stock_after H K sk_empty l) = index_after H ix /\
   forall x, In x ix <-> exists c, In c l /\ index_of H c (only_seals q) x) /\
  (stash_all_succeed H K (with_seals q st_empty) sh /\ sk_stash (stock_after H K sk_empty l) = stash_after H K (with_seals q st_empty) sh /\
   forall x, In x sh <-> exists c, In c l /\ (forall y, c <> SkSeal y) /\ stash_of H c (only_seals q) x).
Proof.
  intros (seals & rest & -> & Ha & Hb) Su. apply all_calls_app in Su as [S1 S2].
  destruct (after_seals seals Ha S1) as (q & Eq & So & Hq). rewrite Eq in S2.
  destruct (fed_all rest _ Hb S2) as (ix & sh & (A1 & B1 & C1) & (A2 & B2 & C2)). cbn [only_seals sk_index sk_stash] in *.
  exists q, ix, sh. unfold stock_after. rewrite fold_left_app. change (fold_left _ seals sk_empty) with (stock_after H K sk_empty seals). rewrite Eq.
  change (fold_left _ rest ?u) with (stock_after H K u rest). split; [exact So|]. split.
  { intros x. rewrite Hq, in_app_iff. split; [auto|]. intros [Hx|Hx]; [exact Hx|destruct (Hb x Hx)]. }
  split; (split; [assumption|]); (split; [assumption|]); intros x.
  - rewrite C1. split; intros (c & Hc & X); exists c; (split; [|exact X]).
    + apply in_or_app. auto.
    + apply in_app_or in Hc as [Hc|Hc]; [|exact Hc]. destruct (Ha c Hc) as (y & ->). destruct X.
  - rewrite C2. split.
    + intros (c & Hc & X). exists c. split; [apply in_or_app; auto|]. split; [intros y ->; exact (Hb y Hc)|exact X].
    + intros (c & Hc & Hn & X). exists c. split; [|exact X]. apply in_app_or in Hc as [Hc|Hc]; [|exact Hc].
      destruct (Ha c Hc) as (y & ->). destruct (Hn y). reflexivity.
Qed.

(** ** The index *)

Lemma same_index l l' : seals_first l -> seals_first l' -> same_calls l l' ->
  all_calls_succeed H K sk_empty l -> all_calls_succeed H K sk_empty l' ->
  sk_index (stock_after H K sk_empty l) = sk_index (stock_after H K sk_empty l').
Proof.
  intros F F' Hs Su Su'. destruct (fed_history l F Su) as (q & ix & _ & So & Hq & (A & B & C) & _).
  destruct (fed_history l' F' Su') as (q' & ix' & _ & So' & Hq' & (A' & B' & C') & _).
  assert (q = q') as <-. { apply ssorted_ext; [exact So|exact So'|]. intros x. rewrite Hq, Hq'. apply Hs. }
  rewrite B, B'. apply index_same; [apply after_wf|apply after_wf|].
  assert (Q : forall a a', all_succeed H mi_empty a' -> (forall x, In x a -> In x a') -> forall f, states (index_after H a) f -> states (index_after H a') f).
  { intros a a' Ha Hi f Hf. apply calls_ok; [apply wf_empty|exact Ha|]. apply calls_sound in Hf; [|apply wf_empty].
    destruct Hf as [Hf|(c & Hc & Hf)]; [left; exact Hf|]. right. exists c. auto. }
  assert (E : forall x, In x ix <-> In x ix').
  { intros x. rewrite C, C'. split; intros (c & Hc & X); exists c; (split; [apply Hs, Hc|exact X]). }
  intros f. split; [apply (Q _ _ A')|apply (Q _ _ A)]; intros x; apply E.
Qed.
End Stocks.

(** ** The stash *)

Section Stash.
Context (H : Hashes) (HC : collision_free H) (K : Merkle).

(** Merging is the least upper bound. *)
Lemma merge_least u a b r : op_wf u -> op_wf a -> merge_op H u a = Ok u -> merge_op H u b = Ok u -> merge_op H a b = Ok r -> merge_op H u r = Ok u.
Proof.
  intros Wu Wa E1 E2 E3. destruct (merge_op_shape H HC _ _ _ Wu E1) as (I1 & R1 & _ & A1 & _).
  destruct (merge_op_shape H HC _ _ _ Wu E2) as (I2 & R2 & _ & A2 & _). destruct (merge_op_shape H HC _ _ _ Wa E3) as (I3 & R3 & _ & A3 & I4 & Wr).
  rewrite merge_op_ok; [|apply op_binds, HC|congruence|exact Wu]. f_equal. rewrite R3. cbn [op_assigns set_assigns].
  rewrite (merge_m_assoc H) by assumption. apply (f_equal op_assigns) in R1, R2. cbn [op_assigns set_assigns] in R1, R2.
  rewrite <- R1, <- R2. apply op_eta.
Qed.
Lemma merge_antisym a b : op_wf a -> op_wf b -> merge_op H a b = Ok a -> merge_op H b a = Ok b -> a = b.
Proof.
  intros Wa Wb E1 E2. destruct (merge_op_shape H HC _ _ _ Wa E1) as (I1 & _).
  rewrite (merge_op_comm H a b HC I1 Wa Wb), E2 in E1. apply Ok_inj in E1. congruence.
Qed.

(** The bundle has the transitions of the other, and they show no less. *)
Definition covers (st b : Bundle) : Prop :=
  forall k x, mget k (b_known b) = Some x -> exists y, mget k (b_known st) = Some y /\ merge_op H y x = Ok y.

Lemma covers_merged st a b r : bundle_wf H st -> bundle_wf H a -> bundle_wf H b -> covers st a -> covers st b -> merge_bundle H a b = Ok r -> covers st r.
Proof.
  intros Ws Wa Wb Ca Cb E k z Ez. destruct (merge_bundle_get H HC _ _ _ Wa Wb E) as (_ & _ & _ & _ & G). specialize (G k).
  destruct (mget k (b_known a)) as [x|] eqn:Ex; [|destruct (mget k (b_known b)); congruence].
  destruct (Ca k x Ex) as (u & Eu & Mu). exists u. split; [exact Eu|].
  destruct (mget k (b_known b)) as [y|] eqn:Ey; [|congruence]. destruct G as (z' & Em & Ez'). assert (z' = z) by congruence. subst z'.
  destruct (Cb k y Ey) as (u' & Eu' & Mu'). assert (u' = u) by congruence. subst u'.
  refine (merge_least u x y z _ _ Mu Mu' Em); [apply Ws in Eu|apply Wa in Ex]; assumption.
Qed.
Lemma covers_both a b : bundle_wf H a -> bundle_wf H b -> bundle_id H a = bundle_id H b -> covers a b -> covers b a -> a = b.
Proof.
  intros Wa Wb E C1 C2. apply HC in E as [Em Ei].
  assert (Ek : b_known a = b_known b).
  { apply msorted_ext; [apply Wa|apply Wb|]. intros k. destruct (mget k (b_known a)) as [x|] eqn:Ex, (mget k (b_known b)) as [y|] eqn:Ey.
    - destruct (C1 k y Ey) as (x' & Ex' & M1), (C2 k x Ex) as (y' & Ey' & M2). assert (x' = x) by congruence. assert (y' = y) by congruence. subst x' y'.
      f_equal. refine (merge_antisym x y _ _ M1 M2); [apply Wa in Ex|apply Wb in Ey]; assumption.
    - destruct (C2 k x Ex) as (y & Ey' & _). congruence.
    - destruct (C1 k y Ey) as (x & Ex' & _). congruence.
    - reflexivity. }
  destruct a, b; cbn in *; congruence.
Qed.

(** [t] has whatever [s] has. *)
Definition below (s t : MemStash) : Prop :=
  (forall id g, mget id (st_geneses s) = Some g -> exists u, mget id (st_geneses t) = Some u /\ merge_op H u g = Ok u) /\
  (forall id e, mget id (st_extensions s) = Some e -> exists u, mget id (st_extensions t) = Some u /\ merge_op H u e = Ok u) /\
  (forall id b, mget id (st_bundles s) = Some b -> exists u, mget id (st_bundles t) = Some u /\ covers u b).

Definition has_all (b : Bundle) (t : MemStash) : Prop := exists u, mget (bundle_id H b) (st_bundles t) = Some u /\ covers u b.
Definition bound (t : MemStash) : Guard :=
  {| g_op := fun g => op_wf g /\ has_genesis H g t; g_ext := fun e => op_wf e /\ has_extension H e t;
     g_bundle := fun b => bundle_ok H b /\ has_all b t |}.

Lemma upd_weaken (G G' : Guard) s s' : (forall o, g_op G o -> g_op G' o) -> (forall o, g_ext G o -> g_ext G' o) ->
  (forall b, g_bundle G b -> g_bundle G' b) -> upd G H s s' -> upd G' H s s'.
Proof. intros W1 W2 W3 U. destruct U; try (econstructor; eauto; fail). Qed.

Lemma below_kept t s s' : good H t -> upd (bound t) H s s' -> good H s /\ below s t -> good H s' /\ below s' t.
Proof.
  intros Gt U [Gs (B1 & B2 & B3)]. split.
  { eapply good_kept; [exact HC| |exact Gs]. eapply upd_weaken; [| | |exact U]; cbn; tauto. }
  destruct U; (split; [|split]); cbn [st_geneses st_extensions st_bundles with_schemata with_ifaces with_suppl with_geneses with_extensions with_bundles
    with_witnesses with_attachments with_types with_libs with_identities with_sigs with_seals]; try assumption.
  - destruct H0 as [Wg (u & Eu & Mu)]. intros k x E. ins; [eauto|]. eauto.
  - destruct H0 as [Wg (u & Eu & Mu)]. intros k x E. ins; [|eauto].
    assert (Wo : op_wf old) by exact (go_gen H s Gs _ _ H1). destruct (merge_op_shape H HC _ _ _ Wo H2) as (I1 & _ & _ & _ & I2 & _).
    assert (Ei : contract_id H x = contract_id H g) by (unfold contract_id; congruence). rewrite Ei. exists u. split; [exact Eu|].
    destruct (B1 _ _ H1) as (u' & Eu' & Mo). assert (u' = u) by congruence. subst u'.
    exact (merge_least u old g x (go_gen H t Gt _ _ Eu) Wo Mo Mu H2).
  - destruct H0 as [Wg (u & Eu & Mu)]. intros k x E. ins; [eauto|]. eauto.
  - destruct H0 as [Wg (u & Eu & Mu)]. intros k x E. ins; [|eauto].
    assert (Wo : op_wf old) by exact (go_ext H s Gs _ _ H1). destruct (merge_op_shape H HC _ _ _ Wo H2) as (I1 & _ & _ & _ & I2 & _).
    assert (Ei : op_id H x = op_id H e) by congruence. rewrite Ei. exists u. split; [exact Eu|].
    destruct (B2 _ _ H1) as (u' & Eu' & Mo). assert (u' = u) by congruence. subst u'.
    exact (merge_least u old e x (go_ext H t Gt _ _ Eu) Wo Mo Mu H2).
  - destruct H0 as [Wg (u & Eu & Mu)]. intros k x E. ins; [eauto|]. eauto.
  - destruct H0 as [Wg (u & Eu & Mu)]. intros k x E. ins; [|eauto].
    assert (Wo : bundle_wf H old) by exact (go_bundle H s Gs _ _ H1).
    assert (Ei : bundle_id H x = bundle_id H b).
    { rewrite (merge_bundle_id H _ _ _ H2). eapply fi_bundle; [apply go_filed, Gs|exact H1]. }
    rewrite Ei. exists u. split; [exact Eu|]. destruct (B3 _ _ H1) as (u' & Eu' & Mo). assert (u' = u) by congruence. subst u'.
    exact (covers_merged u old b x (go_bundle H t Gt _ _ Eu) Wo (proj1 Wg) Mo Mu H2).
Qed.

Lemma below_after t l s : good H t -> (forall c, In c l -> call_guarded (bound t) c) -> good H s -> below s t -> below (stash_after H K s l) t.
Proof.
  intros Gt Hg Gs B.
  refine (proj2 (calls_keep (bound t) H K (fun s => good H s /\ below s t) _ _ l s Hg (conj Gs B))).
  - intros a b. apply below_kept, Gt.
  - intros a id x [Ga Ba]. split; [|exact Ba]. destruct Ga as [F G1 G2 G3]. constructor; try assumption. destruct F; constructor; assumption.
Qed.

Lemma below_both s t : good H s -> good H t -> stash_sorted s -> stash_sorted t -> below s t -> below t s ->
  st_geneses s = st_geneses t /\ st_extensions s = st_extensions t /\ st_bundles s = st_bundles t.
Proof.
  intros Gs Gt Ss St (B1 & B2 & B3) (C1 & C2 & C3). split; [|split].
  - apply msorted_ext; [apply Ss|apply St|]. intros k. destruct (mget k (st_geneses s)) as [x|] eqn:Ex, (mget k (st_geneses t)) as [y|] eqn:Ey.
    + destruct (B1 _ _ Ex) as (y' & Ey' & M1), (C1 _ _ Ey) as (x' & Ex' & M2). assert (x' = x) by congruence. assert (y' = y) by congruence. subst x' y'.
      f_equal. exact (merge_antisym _ _ (go_gen H s Gs _ _ Ex) (go_gen H t Gt _ _ Ey) M2 M1).
    + destruct (B1 _ _ Ex) as (y' & Ey' & _). congruence.
    + destruct (C1 _ _ Ey) as (y' & Ey' & _). congruence.
    + reflexivity.
  - apply msorted_ext; [apply Ss|apply St|]. intros k. destruct (mget k (st_extensions s)) as [x|] eqn:Ex, (mget k (st_extensions t)) as [y|] eqn:Ey.
    + destruct (B2 _ _ Ex) as (y' & Ey' & M1), (C2 _ _ Ey) as (x' & Ex' & M2). assert (x' = x) by congruence. assert (y' = y) by congruence. subst x' y'.
      f_equal. exact (merge_antisym _ _ (go_ext H s Gs _ _ Ex) (go_ext H t Gt _ _ Ey) M2 M1).
    + destruct (B2 _ _ Ex) as (y' & Ey' & _). congruence.
    + destruct (C2 _ _ Ey) as (y' & Ey' & _). congruence.
    + reflexivity.
  - apply msorted_ext; [apply Ss|apply St|]. intros k. destruct (mget k (st_bundles s)) as [x|] eqn:Ex, (mget k (st_bundles t)) as [y|] eqn:Ey.
    + destruct (B3 _ _ Ex) as (y' & Ey' & M1), (C3 _ _ Ey) as (x' & Ex' & M2). assert (x' = x) by congruence. assert (y' = y) by congruence. subst x' y'.
      f_equal. refine (covers_both _ _ (go_bundle H s Gs _ _ Ex) (go_bundle H t Gt _ _ Ey) _ M2 M1).
      rewrite (fi_bundle H s (go_filed H s Gs) _ _ Ex), (fi_bundle H t (go_filed H t Gt) _ _ Ey). reflexivity.
    + destruct (B3 _ _ Ex) as (y' & Ey' & _). congruence.
    + destruct (C3 _ _ Ey) as (y' & Ey' & _). congruence.
    + reflexivity.
Qed.

(** *** All that was brought is there *)

Definition sh_bundle (x : StashCall) (b : Bundle) : Prop :=
  match x with
  | ShConsignment c => exists wb p, In wb (c_bundles c) /\ In p (anchored_iter (wb_bundles wb)) /\ b = snd p
  | ShBundle b' => b = b'
  | _ => False
  end.
Definition brought_by (x : StashCall) (s : MemStash) : Prop :=
  (forall b, sh_bundle x b -> has_bundle H b s) /\
  match x with
  | ShConsignment c => has_genesis H (c_genesis c) s /\ (forall e, In e (c_extensions c) -> has_extension H e s)
  | _ => True
  end.

Lemma consignment_has c s s1 : good H s -> cons_ok H c -> consume_consignment H K c s = (s1, Ok tt) -> brought_by (ShConsignment c) s1.
Proof.
  intros Go Co E.
  assert (Gd : cons_guarded (careful H) c).
  { split; [apply Co|]. split; [apply Co|]. intros wb p Hw Hp. eapply co_bundles; eauto. }
  destruct Co as [C1 C2 C3 C4 C5 C6]. destruct Gd as (D1 & D2 & D3).
  unfold consume_consignment in E. cbv zeta in E.
  unfold bind at 1 in E. destruct (consume_genesis H _ s) as [sa [ua|e|]] eqn:Ea; try discriminate.
  assert (Sta : StashProofs.steps (careful H) H s sa) by (eapply by_consume_genesis; [exact D1|exact Ea]).
  assert (Ga : good H sa) by (eapply good_steps; eassumption).
  unfold bind at 1 in E. destruct (mfor (consume_extension H) _ sa) as [sb [ub|e|]] eqn:Eb; try discriminate.
  assert (Bb : by_steps (careful H) H (mfor (consume_extension H) (c_extensions c))) by (apply by_mfor; intros x Hx; apply by_consume_extension, D2, Hx).
  assert (Stb : StashProofs.steps (careful H) H sa sb) by (eapply Bb, Eb).
  assert (Gb : good H sb) by (eapply good_steps; eassumption).
  unfold bind at 1 in E. destruct (mfor (consume_witness_bundle H K _) _ sb) as [sc [uc|e|]] eqn:Ec; try discriminate.
  assert (Bc : by_steps (careful H) H (mfor (consume_witness_bundle H K (contract_id H (c_genesis c))) (c_bundles c))).
  { apply by_mfor. intros x Hx. apply by_consume_witness_bundle. intros p Hp. eapply D3; eassumption. }
  assert (Stc : StashProofs.steps (careful H) H sb sc) by (eapply Bc, Ec).
  assert (Gc : good H sc) by (eapply good_steps; eassumption).
  unfold bind at 1 in E. destruct (mfor _ (c_attachments c) sc) as [sd [ud|e|]] eqn:Ed; try discriminate.
  assert (Bd : by_steps (careful H) H (mfor (fun p => replace_attachment (fst p) (snd p) ;;! ret tt) (c_attachments c))).
  { apply by_mfor. intros. apply by_bind; [apply by_replace_attachment|intros; apply by_ret]. }
  assert (Std : StashProofs.steps (careful H) H sc sd) by (eapply Bd, Ed).
  assert (Ste : StashProofs.steps (careful H) H sd s1) by (eapply by_consume_kit, E).
  assert (Sce : StashProofs.steps (careful H) H sc s1) by (eapply steps_trans; [exact Std|exact Ste]).
  split; [|split].
  - intros b (wb & p & Hwb & Hp & ->).
    eapply kept_steps; [exact HC|intros t t'; apply bundle_kept; [exact HC|apply (C3 _ _ Hwb Hp)]|exact Sce|exact Gc|].
    pose proof (wbs_leaves H HC K (contract_id H (c_genesis c)) (c_bundles c) C4 C3 _ _ _ Gb Ec wb Hwb) as (r & a & _ & _ & Q & _). apply Q, Hp.
  - eapply kept_steps; [exact HC|intros; eapply genesis_kept; eassumption| |exact Ga|].
    + eapply steps_trans; [exact Stb|]. eapply steps_trans; [exact Stc|exact Sce].
    + eapply consume_genesis_leaves; [exact HC|exact C1|exact Go|exact Ea].
  - intros x Hx. eapply kept_steps; [exact HC|intros; eapply extension_kept; eassumption| |exact Gb|].
    + eapply steps_trans; [exact Stc|exact Sce].
    + eapply (mfor_leaves H HC (consume_extension H) (has_extension H)); [| | |exact Ga|exact Eb|exact Hx].
      * intros a Ha. apply by_consume_extension, D2, Ha.
      * intros a Ha. apply consume_extension_leaves; [exact HC|apply C2, Ha].
      * intros a t t' _. apply extension_kept, HC.
Qed.

Lemma call_has x s : good H s -> call_ok H x -> snd (stash_call H K x s) = Ok tt -> brought_by x (fst (stash_call H K x s)).
Proof.
  intros Go Ox E. destruct x as [c|k|w|b|y|id l]; cbn [stash_call] in *; try (split; [intros ? []; fail|exact Logic.I]).
  - destruct (consume_consignment H K c s) as [s1 e] eqn:Ec. cbn [fst snd] in *. subst e. exact (consignment_has c s s1 Go Ox Ec).
  - split; [|exact Logic.I]. intros b' ->. unfold bind, ret in *. destruct (consume_bundle H b s) as [s1 [z|e|]] eqn:Eb; cbn [fst snd] in *; try discriminate.
    exact (consume_bundle_leaves H HC b Ox s s1 z Go Eb).
Qed.

Lemma sh_bundle_ok x b : call_ok H x -> sh_bundle x b -> bundle_ok H b.
Proof.
  intros Ox. destruct x; cbn; try contradiction.
  - intros (wb & p & Hw & Hp & ->). eapply co_bundles; eauto.
  - intros ->. exact Ox.
Qed.

Lemma kept_call (Q : MemStash -> Prop) x s : (forall a b, upd (careful H) H a b -> good H a -> Q a -> Q b) ->
  (forall a id l, Q a -> Q (with_identities (minsert id l (st_identities a)) a)) ->
  call_ok H x -> good H s -> Q s -> Q (fst (stash_call H K x s)).
Proof.
  intros K1 K2 Ox Go Qs. destruct (call_steps (careful H) H K x s) as [T|(id & lv & -> & ->)].
  - destruct x; cbn in *; auto. split; [apply Ox|]. split; [apply Ox|]. intros wb p Hw Hp. eapply co_bundles; eauto.
  - exact (kept_steps H HC Q s _ K1 T Go Qs).
  - apply K2, Qs.
Qed.

Lemma brought_kept x y s : call_ok H x -> call_ok H y -> good H s -> brought_by x s -> brought_by x (fst (stash_call H K y s)).
Proof.
  intros Ox Oy Go [B M]. split.
  - intros b Hb. refine (kept_call (has_bundle H b) y s _ _ Oy Go (B b Hb)); [|auto].
    intros a a'. apply bundle_kept; [exact HC|apply (sh_bundle_ok x b Ox Hb)].
  - destruct x; auto. destruct M as [M1 M2]. split.
    + refine (kept_call (has_genesis H (c_genesis c)) y s _ _ Oy Go M1); [|auto]. intros a a'. apply genesis_kept, HC.
    + intros e He. refine (kept_call (has_extension H e) y s _ _ Oy Go (M2 e He)); [|auto]. intros a a'. apply extension_kept, HC.
Qed.

Lemma all_brought sh : forall s, good H s -> (forall x, In x sh -> call_ok H x) -> stash_all_succeed H K s sh ->
  good H (stash_after H K s sh) /\ forall x, (In x sh \/ (call_ok H x /\ brought_by x s)) -> brought_by x (stash_after H K s sh).
Proof.
  induction sh as [|y sh IH]; intros s Go Ok Su.
  - split; [exact Go|]. intros x [[]|[_ X]]. exact X.
  - destruct Su as [E Su]. assert (Oy : call_ok H y) by (apply Ok; left; reflexivity).
    pose proof (stash_good H K HC y s Oy Go) as G1.
    destruct (IH _ G1 (fun x Hx => Ok x (or_intror Hx)) Su) as [G2 B]. split; [exact G2|].
    intros x [[<-|Hx]|[Ox X]].
    + apply B. right. split; [exact Oy|]. exact (call_has y s Go Oy E).
    + apply B. left. exact Hx.
    + apply B. right. split; [exact Ox|]. exact (brought_kept x y s Ox Oy Go X).
Qed.

(** *** Every stored bundle has all the transitions it was brought with *)

Definition parts (V : N -> N -> Prop) : Guard :=
  {| g_op := op_wf; g_ext := op_wf; g_bundle := fun b => bundle_ok H b /\ forall k, V (bundle_id H b) k -> mget k (b_known b) <> None |}.
Definition full (V : N -> N -> Prop) (s : MemStash) : Prop :=
  forall id b, mget id (st_bundles s) = Some b -> forall k, V id k -> mget k (b_known b) <> None.

Lemma full_kept V s s' : upd (parts V) H s s' -> good H s /\ full V s -> good H s' /\ full V s'.
Proof.
  intros U [Gs F]. split.
  { eapply good_kept; [exact HC| |exact Gs]. eapply upd_weaken; [| | |exact U]; cbn; tauto. }
  destruct U; try exact F.
  - destruct H0 as [Wb Vb]. intros id x E k Hk. cbn [st_bundles with_bundles] in E. ins; [exact (Vb k Hk)|exact (F _ _ E k Hk)].
  - destruct H0 as [Wb Vb]. intros id x E k Hk. cbn [st_bundles with_bundles] in E. ins; [|exact (F _ _ E k Hk)].
    assert (Wo : bundle_wf H old) by exact (go_bundle H s Gs _ _ H1).
    assert (Ei : bundle_id H x = bundle_id H b).
    { rewrite (merge_bundle_id H _ _ _ H2). exact (fi_bundle H s (go_filed H s Gs) _ _ H1). }
    rewrite Ei in Hk. pose proof (F _ _ H1 k Hk) as Q.
    destruct (merge_bundle_get H HC _ _ _ Wo (proj1 Wb) H2) as (_ & _ & _ & _ & G). specialize (G k).
    destruct (mget k (b_known old)) as [y|]; [|congruence]. destruct (mget k (b_known b)) as [z|]; [|congruence].
    destruct G as (w & _ & ->). discriminate.
Qed.

Lemma same_stash q sh sh' : (forall x, In x sh <-> In x sh') -> (forall x, In x sh -> call_ok H x) ->
  (forall x x' b b' k, In x sh -> In x' sh -> sh_bundle x b -> sh_bundle x' b' -> bundle_id H b = bundle_id H b' ->
     mget k (b_known b) <> None -> mget k (b_known b') <> None) ->
  stash_all_succeed H K (with_seals q st_empty) sh -> stash_all_succeed H K (with_seals q st_empty) sh' -> ssorted q ->
  let s := stash_after H K (with_seals q st_empty) sh in let s' := stash_after H K (with_seals q st_empty) sh' in
  st_geneses s = st_geneses s' /\ st_extensions s = st_extensions s' /\ st_bundles s = st_bundles s'.
Proof.
  intros Hs Ok Pt Su Su' Sq s s'. set (s0 := with_seals q st_empty) in *.
  assert (G0 : good H s0).
  { constructor; [constructor|..]; cbn; discriminate. }
  assert (S0 : stash_sorted s0).
  { constructor; cbn; try apply msorted_nil; try discriminate. exact Sq. }
  assert (Q : forall a a', (forall x, In x a -> In x a') -> (forall x, In x a' -> In x sh) -> stash_all_succeed H K s0 a' ->
    below (stash_after H K s0 a) (stash_after H K s0 a')).
  { intros a a' Hi Hi' Sa.
    destruct (all_brought a' s0 G0 (fun x Hx => Ok x (Hi' x Hx)) Sa) as [G1 B].
    set (t := stash_after H K s0 a') in *.
    set (V := fun id k => exists x b, In x a' /\ sh_bundle x b /\ bundle_id H b = id /\ mget k (b_known b) <> None).
    assert (F : full V t).
    { refine (proj2 (calls_keep (parts V) H K (fun s => good H s /\ full V s) (full_kept V) _ a' s0 _ (conj G0 _))).
      - intros u id z [Gu Fu]. split; [|exact Fu]. destruct Gu as [P G2 G3 G4]. constructor; try assumption. destruct P; constructor; assumption.
      - assert (W : forall x b, In x a' -> sh_bundle x b -> g_bundle (parts V) b).
        { intros x b Hx Hb. split; [exact (sh_bundle_ok x b (Ok x (Hi' x Hx)) Hb)|].
          intros k (x' & b' & Hx' & Hb' & Eb & Hk). exact (Pt x' x b' b k (Hi' _ Hx') (Hi' _ Hx) Hb' Hb Eb Hk). }
        intros x Hx. specialize (W x). pose proof (Ok x (Hi' x Hx)) as Ox. destruct x; cbn [call_guarded]; auto.
        + split; [apply Ox|]. split; [apply Ox|]. intros wb p Hw Hp. apply W; [exact Hx|]. exists wb, p. auto.
        + apply W; [exact Hx|reflexivity].
      - intros id b E. discriminate. }
    apply below_after; [exact G1| |exact G0|split; [|split]; intros ? ? E; discriminate].
    assert (W : forall x b, In x a -> sh_bundle x b -> g_bundle (bound t) b).
    { intros x b Hx Hb. apply Hi in Hx. pose proof (sh_bundle_ok x b (Ok x (Hi' x Hx)) Hb) as Ob. split; [exact Ob|].
      destruct (proj1 (B x (or_introl Hx)) b Hb) as (u & Eu & [_ Mu]). exists u. split; [exact Eu|]. intros k y Ey.
      destruct (mget k (b_known u)) as [z|] eqn:Ez.
      - exists z. split; [reflexivity|]. exact (Mu k z y Ez Ey).
      - exfalso. apply (F _ _ Eu k); [|exact Ez]. exists x, b. split; [exact Hx|]. split; [exact Hb|]. split; [reflexivity|congruence]. }
    intros x Hx. pose proof (proj2 (B x (or_introl (Hi x Hx)))) as M. specialize (W x). pose proof (Ok x (Hi' x (Hi x Hx))) as Ox.
    destruct x; cbn [call_guarded]; auto.
    - split; [split; [apply Ox|apply M]|]. split; [intros e He; split; [apply Ox, He|apply M, He]|].
      intros wb p Hw Hp. apply W; [exact Hx|]. exists wb, p. auto.
    - apply W; [exact Hx|reflexivity]. }
  destruct (all_brought sh s0 G0 Ok Su) as [G1 _]. destruct (all_brought sh' s0 G0 (fun x Hx => Ok x (proj2 (Hs x) Hx)) Su') as [G2 _].
  apply below_both; [exact G1|exact G2|apply sorted_after, S0|apply sorted_after, S0| |].
  - apply Q; [intros x; apply Hs|intros x; apply Hs|exact Su'].
  - apply Q; [intros x; apply Hs|auto|exact Su].
Qed.
End Stash.

(** *** For stocks *)

Section Both.
Context {OG : OrdKey GlobalOut} (H : Hashes) (HC : collision_free H) (K : Merkle).

Lemma stash_of_fine c s x : ledger_call_ok H c -> stash_of H c s x -> call_ok H x.
Proof.
  intros [Ok Mo] E. destruct c as [c r|f r|k|y|r after|]; cbn [stash_of] in E; try contradiction.
  - destruct E as (c' & Er & ->). exact (proj1 (resolve_ok H _ _ _ r Ok Er)).
  - destruct E as [->|(p & Hp & ->)]; [exact Logic.I|]. exact (proj1 (Ok p Hp)).
  - subst x. exact Logic.I.
  - subst x. exact Logic.I.
Qed.

Lemma stash_of_bundle c s x b l : ledger_call_ok H c -> In c l -> stash_of H c s x -> sh_bundle x b ->
  exists b0, brings_bundle l b0 /\ bundle_id H b0 = bundle_id H b /\ forall k, mget k (b_known b) = None <-> mget k (b_known b0) = None.
Proof.
  intros [Ok Mo] Hc E Hb. destruct c as [c r|f r|k|y|r after|]; cbn [stash_of] in E; try contradiction.
  - destruct E as (c' & Er & ->). destruct Hb as (wb' & p & Hw & Hp & ->). destruct Mo as [Mt Mo].
    destruct (resolved_rel H _ c c' HC Mt Mo Er) as [_ F]. destruct (Forall2_r _ _ _ _ F Hw) as (wb & Hwb & _ & F2).
    assert (Hp' : In (snd p) (anchored_bundles (wb_bundles wb'))) by (rewrite anchored_bundles_map; apply in_map, Hp).
    destruct (Forall2_r _ _ _ _ F2 Hp') as (b0 & Hb0 & z & _ & ->). exists b0. split; [left; exists c, r, wb; auto|].
    split; [destruct z; reflexivity|]. intros k. destruct z as [z|]; cbn [resolved_b]; [|tauto].
    unfold reveal_bundle. cbn [b_known]. rewrite mget_mmap. destruct (mget k (b_known b0)); cbn; split; congruence.
  - destruct E as [->|(p & Hp & ->)]; [destruct Hb|]. cbn in Hb. subst b. exists (snd p). split; [|split; [reflexivity|tauto]].
    right. exists f, r, (fst p). rewrite <- surjective_pairing. auto.
  - subst x. destruct Hb.
  - subst x. destruct Hb.
Qed.

Lemma same_stashes l l' : (forall c, In c l -> ledger_call_ok H c) -> seals_first l -> seals_first l' -> same_calls l l' ->
  all_calls_succeed H K sk_empty l -> all_calls_succeed H K sk_empty l' -> same_parts H l ->
  same_history (stock_after H K sk_empty l) (stock_after H K sk_empty l').
Proof.
  intros Hok F F' Hs Su Su' Pt. destruct (fed_history H K l F Su) as (q & _ & sh & So & Hq & _ & (A & B & C)).
  destruct (fed_history H K l' F' Su') as (q' & _ & sh' & So' & Hq' & _ & (A' & B' & C')).
  assert (q = q') as <-. { apply ssorted_ext; [exact So|exact So'|]. intros x. rewrite Hq, Hq'. apply Hs. }
  destruct (same_stash H HC K q sh sh') as (E1 & E2 & E3).
  - intros x. rewrite C, C'. split; intros (c & Hc & X); exists c; (split; [apply Hs, Hc|exact X]).
  - intros x Hx. apply C in Hx as (c & Hc & _ & X). exact (stash_of_fine c _ x (Hok c Hc) X).
  - intros x x' b b' k Hx Hx' Hb Hb' Eb Hk. apply C in Hx as (c & Hc & _ & X). apply C in Hx' as (c' & Hc' & _ & X').
    destruct (stash_of_bundle c _ x b l (Hok c Hc) Hc X Hb) as (b0 & V & I & Kn). destruct (stash_of_bundle c' _ x' b' l (Hok c' Hc') Hc' X' Hb') as (b1 & V1 & I1 & Kn1).
    intros E. apply Kn1 in E. apply (Pt b0 b1 k V V1); [congruence| |exact E]. intros E0. apply Kn in E0. exact (Hk E0).
  - exact A.
  - exact A'.
  - exact So.
  - unfold same_history. rewrite B, B'. unfold stash_genesis, stash_extension, stash_bundle. rewrite E1, E2, E3. repeat split.
Qed.
End Both.
