(** * Composing with checked sums: proofs for C79 *)
From Verif Require Import Base Core InvoiceModel SupplModel ContainerModel PIndexModel StateModel StashModel StockModel IfaceModel
  BuilderModel BuilderSpec BuilderProofs ComposeModel ComposeSpec ComposeProofs ComposeMain ComposePaid DebugModel.
Local Open Scope N_scope.

Section Compose.
Context (H : Hashes) (D : Defs) (P : Pedersen) (s : Stock) (ch : Choices) (od : Orders).

Lemma finish_dbg_eq b outputs : (forall x y, In x outputs -> In y outputs -> os_method x = os_method y) -> finish_dbg H P od b outputs = finish H P od b outputs.
Proof.
  intros Hm. unfold finish_dbg, finish. destruct (co_builder _) as [t|e|]; [|reflexivity|reflexivity]. cbn [rbind].
  unfold transition_info_new. destruct outputs as [|x l]; [reflexivity|]. destruct (_ <? _); [reflexivity|].
  destruct (existsb _ _) eqn:Ex; [|reflexivity]. exfalso. apply existsb_exists in Ex as (y & Hy & Ey).
  rewrite (Hm y x Hy (or_introl eq_refl)), keqb_refl in Ey. discriminate.
Qed.
Lemma one_method cid m me x y : In x (outputs_with od cid m (of_method me)) -> In y (outputs_with od cid m (of_method me)) -> os_method x = os_method y.
Proof.
  intros Hx Hy. apply filter_In in Hx as [_ Ex]. apply filter_In in Hy as [_ Ey]. unfold of_method in Ex, Ey. destruct (os_method x), (os_method y), me; cbn in Ex, Ey; congruence.
Qed.
Lemma other_method cid m me x y : In x (outputs_with od cid m (fun z => negb (of_method me z))) -> In y (outputs_with od cid m (fun z => negb (of_method me z))) -> os_method x = os_method y.
Proof.
  intros Hx Hy. apply filter_In in Hx as [_ Ex]. apply filter_In in Hy as [_ Ey]. unfold of_method in Ex, Ey.
  destruct (os_method x), (os_method y), me; cbn in Ex, Ey; congruence.
Qed.

Lemma rfold_same {A B E} (f g : A -> B -> result E A) l : (forall a b, f a b = g a b) -> forall a, rfold f a l = rfold g a l.
Proof. intros Hf. induction l as [|b l IH]; intros a; cbn [rfold]; [reflexivity|]. rewrite Hf. destruct (g a b); cbn [rbind]; auto. Qed.

Lemma blanks_for_dbg_eq method layer iface m : blanks_for_dbg H D P s ch od method layer iface m = blanks_for H D P s ch od method layer iface m.
Proof.
  apply rfold_same. intros acc [id sp]. f_equal. unfold blank_for_dbg, blank_for.
  destruct (blank_builder _ _ _ _) as [t|e|]; [|reflexivity|reflexivity]. cbn [rbind].
  destruct (rfold _ _ _) as [[w1 w2]|e|]; [|reflexivity|reflexivity]. cbn [rbind]. f_equal. cbn [rfold fst snd].
  rewrite !finish_dbg_eq by (intros x y; apply one_method). reflexivity.
Qed.

Lemma add64_same x y : x + y <= U64MAX -> add64 false x y = add64 true x y.
Proof. intros Hs. unfold add64. destruct (N.leb_spec (x + y) U64MAX); [reflexivity|lia]. Qed.
Lemma sub64_same x y : y <= x -> sub64 false x y = sub64 true x y.
Proof. intros Hs. unfold sub64. destruct (N.leb_spec y x); [reflexivity|lia]. Qed.

Lemma spend_same X method layer cid a lookup w x : wk_sum_alt w <= wk_sum w -> wk_sum w + amount_in a x <= U64MAX ->
  spend D false s ch X method layer cid a lookup w x = spend D true s ch X method layer cid a lookup w x /\
  forall w', spend D true s ch X method layer cid a lookup w x = Ok w' -> wk_sum_alt w' <= wk_sum w' /\ wk_sum w' = wk_sum w + amount_in a x.
Proof.
  intros Hs Ht. destruct x as [seal [o st]]. unfold spend. unfold amount_in, in_ty, in_out, in_state in *. cbn [fst snd] in *.
  destruct (wk_call X (of_method method seal) (TInput o st) w) as [w1|e|] eqn:Ew; [|split; [reflexivity|discriminate]..]. cbn [rbind].
  apply wk_call_ok in Ew as (b & _ & ->). destruct (oo_ty o =? a); cbn [negb].
  - destruct st as [|v bl tag|v salt|f salt]; cbn [wk_sum wk_sum_alt] in *.
    + split; [reflexivity|]. intros w' [= <-]. cbn [wk_sum wk_sum_alt]. lia.
    + rewrite !(add64_same) by (cbn [wk_sum wk_sum_alt]; lia). split; [reflexivity|]. intros w' E. unfold add64 in E.
      destruct (N.leb_spec (wk_sum w + v) U64MAX); [|lia]. destruct (N.leb_spec (wk_sum_alt w + v) U64MAX); [|lia]. cbn [rbind] in E.
      destruct (of_method method seal); cbn [rbind] in E; injection E as <-; cbn [wk_sum wk_sum_alt]; lia.
    + split; [reflexivity|]. intros w' [= <-]. cbn [wk_sum wk_sum_alt]. lia.
    + split; [reflexivity|]. intros w' [= <-]. cbn [wk_sum wk_sum_alt]. lia.
  - split; [reflexivity|]. intros w' E. destruct (output_for _ _ _ _ _ _ _ _) as [out|e|]; cbn [rbind] in E; try discriminate.
    apply wk_call_ok in E as (b' & _ & ->). cbn [wk_sum wk_sum_alt]. lia.
Qed.

Lemma spends_same X method layer cid a lookup l : forall w, wk_sum_alt w <= wk_sum w -> wk_sum w + total a l <= U64MAX ->
  rfold (spend D false s ch X method layer cid a lookup) w l = rfold (spend D true s ch X method layer cid a lookup) w l /\
  forall w', rfold (spend D true s ch X method layer cid a lookup) w l = Ok w' -> wk_sum_alt w' <= wk_sum w'.
Proof.
  induction l as [|x l IH]; intros w Hs Ht; cbn [rfold].
  - split; [reflexivity|]. intros w' [= <-]. exact Hs.
  - unfold total in Ht, IH. unfold list_sum in *. cbn [map fold_right] in Ht.
    destruct (spend_same X method layer cid a lookup w x Hs) as [E Hw]; [lia|]. rewrite E.
    destruct (spend D true s ch X method layer cid a lookup w x) as [w1|e|]; cbn [rbind]; [|split; [reflexivity|discriminate]..].
    destruct (Hw w1 eq_refl) as [Hs1 Hsum]. apply IH; [exact Hs1|]. unfold list_sum in *. lia.
Qed.

Lemma pay_same X method layer cid a ben st w : wk_sum_alt w <= wk_sum w ->
  pay D false s ch X method layer cid a ben st w = pay D true s ch X method layer cid a ben st w.
Proof.
  intros Hs. unfold pay. destruct st; try reflexivity. unfold pay_amount. rewrite (sub64_same _ _ Hs). reflexivity.
Qed.

Lemma compose_dbg_checked inv prev method vout priority now :
  compose_dbg H D P s ch od inv prev method vout priority now = compose H D P false s ch od inv prev method vout priority now.
Proof.
  unfold compose_dbg, compose. cbv zeta. destruct (match expiry inv with Some t => (t <? now)%Z | None => false end); [reflexivity|].
  destruct (ok_or NoContract _) as [cid|e|]; [|reflexivity|reflexivity]. cbn [rbind]. destruct (rmap _ _) as [iface|e|]; [|reflexivity|reflexivity]. cbn [rbind].
  destruct (transition_builder _ _ _ _ _) as [main|e|]; [|reflexivity|reflexivity]. cbn [rbind].
  destruct (payment_type _ _ _ _) as [a|e|]; [|reflexivity|reflexivity]. cbn [rbind].
  destruct (beneficiary_seal _ _ _ _ _ _ _) as [ben|e|]; [|reflexivity|reflexivity]. cbn [rbind].
  destruct (contract_assignments_for _ _ _) as [m|e|]; [|reflexivity|reflexivity]. cbn [rbind].
  destruct (rfold _ _ _) as [w|e|]; [|reflexivity|reflexivity]. cbn [rbind].
  destruct (pay _ _ _ _ _ _ _ _ _ _ _ w) as [w'|e|]; [|reflexivity|reflexivity]. cbn [rbind].
  destruct (spent_state _ _ _) as [sp|e|]; [|reflexivity|reflexivity]. cbn [rbind]. rewrite blanks_for_dbg_eq.
  destruct (blanks_for _ _ _ _ _ _ _ _ _ _) as [bl|e|]; [|reflexivity|reflexivity]. cbn [rbind].
  destruct (has_inputs (wk_main w')), (has_inputs (wk_alt w')); cbn [rbind fst snd]; try reflexivity.
  - rewrite !finish_dbg_eq by first [intros x y; apply one_method|intros x y; apply other_method]. reflexivity.
  - rewrite !finish_dbg_eq by first [intros x y; apply one_method|intros x y; apply other_method]. reflexivity.
  - rewrite !finish_dbg_eq by first [intros x y; apply one_method|intros x y; apply other_method]. reflexivity.
Qed.

Lemma compose_unchecked inv prev method vout priority now : orders_ok od ->
  (forall cid tt a, asks D s inv cid tt a -> exists l, spent s cid prev l /\ total a l <= U64MAX) ->
  compose H D P false s ch od inv prev method vout priority now = compose H D P true s ch od inv prev method vout priority now.
Proof.
  intros Ho Ht. unfold compose. cbv zeta. destruct (match expiry inv with Some t => (t <? now)%Z | None => false end); [reflexivity|].
  destruct (ok_or NoContract _) as [cid|e|] eqn:Ec; [|reflexivity|reflexivity]. cbn [rbind]. apply ok_or_ok in Ec.
  destruct (rmap _ _) as [iface|e|] eqn:Ei; [|reflexivity|reflexivity]. cbn [rbind]. apply rmap_ok in Ei as (iface0 & Ei & ->). apply ok_or_ok in Ei.
  destruct (transition_builder _ _ _ _ _) as [[X b]|e|] eqn:Eb; [|reflexivity|reflexivity]. cbn [rbind fst snd].
  destruct (payment_type _ _ _ _) as [a|e|] eqn:Ea; [|reflexivity|reflexivity]. cbn [rbind].
  destruct (beneficiary_seal _ _ _ _ _ _ _) as [ben|e|]; [|reflexivity|reflexivity]. cbn [rbind].
  destruct (contract_assignments_for _ _ _) as [m|e|] eqn:Em; [|reflexivity|reflexivity]. cbn [rbind].
  destruct (transition_builder_ok _ _ _ _ _ _ _ Eb) as (g & si & i & im & tt' & B1 & B2 & B3 & B4 & B5 & B6 & B7 & B8 & B9 & B10).
  assert (K1 : asks D s inv cid tt' a).
  { exists iface0, g, si, i, im, X. repeat (split; [assumption|]). split.
    - destruct (InvoiceModel.operation inv); exact B8.
    - eapply payment_type_ok; [exact B9|reflexivity|exact Ea]. }
  destruct (Ht _ _ _ K1) as (l & Hsp & Hl). destruct (caf_ok _ _ _ _ _ Em Hsp) as [_ Hp]. pose proof (Permutation_trans (listed_perm od cid m Ho) Hp) as Hq.
  set (lay := layer1 (chain_network (beneficiary inv))). set (lk := match owned_state inv with ISData al => Some (df_alloc D al) | _ => None end).
  set (w0 := {| wk_main := b; wk_alt := b; wk_sum := 0; wk_sum_alt := 0; wk_data := []; wk_data_main := true |}).
  destruct (spends_same X method lay cid a lk (listed od cid m) w0) as [E Hs]; [cbn; lia|rewrite (total_perm a _ _ Hq); cbn [w0 wk_sum]; lia|].
  rewrite E. destruct (rfold (spend D true s ch X method lay cid a lk) w0 (listed od cid m)) as [w|e|]; [|reflexivity|reflexivity]. cbn [rbind].
  rewrite (pay_same X method lay cid a ben (owned_state inv) w (Hs w eq_refl)). reflexivity.
Qed.
End Compose.
