(** * Filters, queries and the history of a contract: proofs *)
From Coq Require Import Permutation.
From Verif Require Import Base Core AmountModel AmountProofs ContainerModel PIndexModel StateModel StateSpec StateProofs IfaceModel HistoryModel HistorySpec.
Local Open Scope N_scope.

(** ** Groups *)

Definition okey (a : OutAssign) : Opout * OutSeal := (oa_opout a, oa_seal a).
Definition nonempty {A} (l : list A) : option (list A) := match l with [] => None | _ => Some l end.
Definition listed {A} (o : option (list A)) : list A := match o with Some l => l | None => [] end.
Lemma listed_nonempty {A} (l : list A) : listed (nonempty l) = l.
Proof. destruct l; reflexivity. Qed.
Lemma nonempty_app {A} (l : list A) x : nonempty (l ++ [x]) = Some (l ++ [x]).
Proof. destruct l; reflexivity. Qed.
Lemma nonempty_map {A B} (f : A -> B) l : nonempty (map f l) = option_map (map f) (nonempty l).
Proof. destruct l; reflexivity. Qed.

Lemma same_owned_iff a b : same_owned (transmute a) (transmute b) = true <-> okey a = okey b.
Proof.
  unfold same_owned, okey, transmute. cbn. rewrite andb_true_iff. split.
  - intros [E1 E2]. apply keqb_true in E1, E2. congruence.
  - intros E. injection E as E1 E2. rewrite E1, E2. split; apply keqb_refl.
Qed.
Lemma hs_has_iff a l : hs_has (transmute a) (map transmute l) = true <-> In (okey a) (map okey l).
Proof.
  unfold hs_has. rewrite existsb_exists. split.
  - intros (x & Hx & E). apply in_map_iff in Hx as (b & <- & Hb). apply same_owned_iff in E. rewrite E. apply in_map, Hb.
  - intros Hin. apply in_map_iff in Hin as (b & E & Hb). exists (transmute b). split; [apply in_map, Hb|]. apply same_owned_iff. congruence.
Qed.
Lemma hs_insert_new a l : ~ In (okey a) (map okey l) -> hs_insert (transmute a) (map transmute l) = map transmute (l ++ [a]).
Proof.
  intros Hn. unfold hs_insert. destruct (hs_has (transmute a) (map transmute l)) eqn:E; [apply hs_has_iff in E; contradiction|].
  rewrite map_app. reflexivity.
Qed.

Lemma keys_filter_not (f : OutAssign -> bool) a l : NoDup (map okey (l ++ [a])) -> ~ In (okey a) (map okey (filter f l)).
Proof.
  rewrite map_app. intros ND Hin. apply NoDup_remove in ND. rewrite app_nil_r in ND. apply ND.
  apply in_map_iff in Hin as (b & E & Hb). apply filter_In in Hb as [Hb _]. rewrite <- E. apply in_map, Hb.
Qed.
Lemma NoDup_app_l {A} (l r : list A) : NoDup (l ++ r) -> NoDup l.
Proof. induction l as [|x l IH]; intros ND; [constructor|]. inversion ND as [|? ? Hn ND']; subst. constructor; [|auto]. intros Hin. apply Hn, in_or_app. auto. Qed.

(** The map of a fold is the list by key. *)
Lemma grouped {K} `{OrdKey K} (m0 : omap K (list Owned)) (kf : OutAssign -> K) (l : list OutAssign) (m : omap K (list Owned)) :
  m0 = [] -> NoDup (map okey l) -> fold_left (fun m a => hm_add (kf a) (transmute a) m) l m0 = m ->
  msorted m /\ forall k, mget k m = option_map (map transmute) (nonempty (filter (fun a => keqb (kf a) k) l)).
Proof.
  intros -> ND <-. induction l as [|a l IH] using rev_ind; [split; [apply msorted_nil|intros k; reflexivity]|].
  assert (ND' : NoDup (map okey l)) by (rewrite map_app in ND; apply NoDup_app_l in ND; exact ND).
  destruct (IH ND') as [Sm G]. rewrite fold_left_app. cbn [fold_left]. unfold hm_add at 1 3.
  split; [apply minsert_sorted, Sm|]. intros k. rewrite mget_insert. rewrite filter_app. cbn [filter].
  destruct (keqb k (kf a)) eqn:E.
  - apply keqb_true in E. subst k. rewrite keqb_refl. rewrite G, nonempty_app. cbn [option_map]. f_equal.
    rewrite <- hs_insert_new by (apply keys_filter_not, ND). f_equal.
    destruct (filter (fun a0 => keqb (kf a0) (kf a)) l); reflexivity.
  - rewrite keqb_sym, E, app_nil_r. apply G.
Qed.

Definition add_made (m : omap WitnessId (list Owned)) (a : OutAssign) : result ContractError (omap WitnessId (list Owned)) :=
  let! w := expect (oa_witness a) in Ok (hm_add w (transmute a) m).
Lemma grouped_result (l : list OutAssign) (m : omap WitnessId (list Owned)) :
  NoDup (map okey l) ->
  rfold add_made [] l = (Ok m : result ContractError _) ->
  msorted m /\ (forall w, mget w m = option_map (map transmute) (nonempty (filter (fun a => keqb (oa_witness a) (Some w)) l))).
Proof.
  revert m. induction l as [|a l IH] using rev_ind; intros m ND E.
  { cbn in E. apply Ok_inj in E. subst. split; [apply msorted_nil|reflexivity]. }
  assert (ND' : NoDup (map okey l)) by (rewrite map_app in ND; apply NoDup_app_l in ND; exact ND).
  rewrite rfold_app in E. destruct (rfold add_made [] l) as [m'| |] eqn:El; try discriminate E. cbn [rbind rfold] in E. unfold add_made in E.
  destruct (IH m' ND' eq_refl) as [Sm G]. destruct (oa_witness a) as [wa|] eqn:Ew; [|discriminate E]. cbn [expect rbind] in E. apply Ok_inj in E. subst m.
  unfold hm_add. split; [apply minsert_sorted, Sm|]. intros w. rewrite mget_insert, filter_app. cbn [filter]. rewrite Ew.
  destruct (keqb w wa) eqn:E.
  - apply keqb_true in E. subst w. rewrite keqb_refl. rewrite G, nonempty_app. cbn [option_map]. f_equal.
    rewrite <- hs_insert_new by (apply keys_filter_not, ND). f_equal.
    destruct (filter (fun a0 => keqb (oa_witness a0) (Some wa)) l); reflexivity.
  - replace (keqb (Some wa) (Some w)) with false; [rewrite app_nil_r; apply G|].
    symmetry. apply not_true_iff_false. intros E'. apply keqb_true in E'. injection E' as ->. rewrite keqb_refl in E. discriminate E.
Qed.
Lemma grouped_panics (l : list OutAssign) :
  (rfold add_made [] l = (Panic : result ContractError (omap WitnessId (list Owned))) <->
   exists a, In a l /\ oa_witness a = None) /\
  forall e, rfold add_made [] l <> (Err e : result ContractError (omap WitnessId (list Owned))).
Proof.
  generalize (@nil (WitnessId * list Owned)). induction l as [|a l IH]; intros m; cbn [rfold rbind].
  - split; [|discriminate]. split; [discriminate|intros (a & [] & _)].
  - unfold add_made at 1 3. destruct (oa_witness a) as [w|] eqn:Ew; cbn [expect rbind].
    + destruct (IH (hm_add w (transmute a) m)) as [IH1 IH2]. split; [|exact IH2]. rewrite IH1. split.
      * intros (b & Hb & E). exists b. split; [right; exact Hb|exact E].
      * intros (b & [<-|Hb] & E); [congruence|eauto].
    + split; [|discriminate]. split; [intros _; exists a; split; [left; reflexivity|exact Ew]|reflexivity].
Qed.

(** ** Operations by group *)

Section Ops.
Context (ord : list Owned -> list Owned) (Hord : forall s, Permutation s (ord s)).
Context (k : StateKind) (c : MemContract) (fo fw : AFilter).
Notation A := (outs_all k c).
Context (ND : NoDup (map okey A)).

Definition ours_at (w : option WitnessId) : list OutAssign := filter (fun a => keqb (oa_witness a) w) (filter (passes fo) A).
Definition made_at (w : WitnessId) : list OutAssign := filter (fun a => keqb (oa_witness a) (Some w)) (filter (passes fw) A).
Definition group (w : option WitnessId) : Direction * list OutAssign :=
  match w with
  | None => (Issued, ours_at None)
  | Some w => match made_at w with
              | [] => (Received, ours_at (Some w))
              | l => (Sent, filter (fun a => negb (passes fo a)) l)
              end
  end.
Definition info_of (w : option WitnessId) : option WitnessInfo :=
  match w with
  | None => None
  | Some w => option_map (fun o => {| wi_id := w; wi_ord := o |}) (mget w (mc_filter c))
  end.
Definition group_ops (w : option WitnessId) : result ContractError (list ContractOp) :=
  match snd (group w) with
  | [] => Ok []
  | g => ops_of ord k (fst (group w)) (info_of w) (map transmute g)
  end.

Lemma ND_filter f : NoDup (map okey (filter f A)).
Proof. apply NoDup_filter_map, ND. Qed.

Lemma known_witness a w : In a A -> oa_witness a = Some w -> exists o, mget w (mc_filter c) = Some o.
Proof.
  unfold outs_all. intros Ha Ew. apply filter_In in Ha as [_ Hc]. unfold check_witness in Hc. rewrite Ew in Hc.
  destruct (mget w (mc_filter c)) as [o|]; [eauto|discriminate Hc].
Qed.

Lemma In_ours_at a w : In a (ours_at w) <-> In a A /\ ours fo a /\ oa_witness a = w.
Proof. unfold ours_at, ours, passes. rewrite !filter_In, keqb_eq. tauto. Qed.
Lemma In_made_at a w : In a (made_at w) <-> In a A /\ made fw a /\ oa_witness a = Some w.
Proof. unfold made_at, made, passes. rewrite !filter_In, keqb_eq. tauto. Qed.

Lemma In_group a d w : d = fst (group w) -> In a (snd (group w)) <-> deals fo fw A d w a.
Proof.
  intros ->. unfold deals. destruct w as [w|]; cbn [group].
  2:{ cbn [fst snd]. unfold issued. rewrite In_ours_at. tauto. }
  assert (Hm : forall l, made_at w = l -> (l = [] <-> ~ our_payment fw A w)).
  { intros l El. split.
    - intros -> (b & Hb & Ew & Hm). assert (Hi : In b (made_at w)) by (apply In_made_at; auto). rewrite El in Hi. destruct Hi.
    - intros Hn. destruct l as [|b l]; [reflexivity|]. exfalso. apply Hn. exists b.
      assert (Hb : In b (made_at w)) by (rewrite El; left; reflexivity). apply In_made_at in Hb. tauto. }
  destruct (made_at w) as [|b l] eqn:El; cbn [fst snd].
  - unfold received. rewrite In_ours_at. specialize (Hm [] eq_refl). tauto.
  - unfold sent. rewrite <- El, filter_In, In_made_at, negb_true_iff. unfold ours, passes. rewrite <- not_true_iff_false. tauto.
Qed.
Lemma group_direction d w a : deals fo fw A d w a -> d = fst (group w).
Proof.
  intros [Ha Hd]. destruct d, w as [w|]; try contradiction; cbn [group].
  - reflexivity.
  - destruct (made_at w) as [|b l] eqn:El; [reflexivity|]. exfalso. destruct Hd as (_ & _ & Hn). apply Hn. exists b.
    assert (Hb : In b (made_at w)) by (rewrite El; left; reflexivity). apply In_made_at in Hb. tauto.
  - destruct (made_at w) as [|b l] eqn:El; [|reflexivity]. exfalso. destruct Hd as (Ew & Hm & _).
    assert (Hi : In a (made_at w)) by (apply In_made_at; auto). rewrite El in Hi. destruct Hi.
Qed.
Lemma group_nodup w : NoDup (snd (group w)).
Proof.
  assert (NDA : NoDup A) by (apply (NoDup_map_inv okey), ND).
  destruct w as [w|]; cbn [group]; [|cbn; unfold ours_at; apply NoDup_filter, NoDup_filter, NDA].
  destruct (made_at w) as [|b l] eqn:El; cbn [snd]; [unfold ours_at; apply NoDup_filter, NoDup_filter, NDA|].
  rewrite <- El. unfold made_at. apply NoDup_filter, NoDup_filter, NoDup_filter, NDA.
Qed.

Lemma difference_spec w : hs_difference (map transmute (made_at w)) (map transmute (ours_at (Some w))) =
  map transmute (filter (fun a => negb (passes fo a)) (made_at w)).
Proof.
  unfold hs_difference. assert (Hin : forall a, In a (made_at w) -> In a A /\ oa_witness a = Some w) by (intros a Ha; apply In_made_at in Ha; tauto).
  induction (made_at w) as [|a l IH]; [reflexivity|]. cbn [map filter].
  assert (E : hs_has (transmute a) (map transmute (ours_at (Some w))) = passes fo a).
  { destruct (Hin a (or_introl eq_refl)) as [Ha Ew]. apply Bool.eq_iff_eq_true. rewrite hs_has_iff. split.
    - intros Hk. apply in_map_iff in Hk as (b & Ek & Hb). apply In_ours_at in Hb as (Hb & Ho & _).
      assert (a = b).
      { clear -ND Ha Hb Ek. induction (outs_all k c) as [|x L IHL]; [destruct Ha|]. cbn [map] in ND. inversion ND as [|? ? Hn ND']; subst.
        destruct Ha as [->|Ha], Hb as [->|Hb]; auto; exfalso; apply Hn; [rewrite <- Ek|rewrite Ek]; apply in_map; assumption. }
      subst b. exact Ho.
    - intros Hp. apply in_map. apply In_ours_at. auto. }
  rewrite E. destruct (passes fo a); cbn [negb map]; rewrite IH by (intros x Hx; apply Hin; right; exact Hx); reflexivity.
Qed.

Lemma witness_ops_group mo mw w :
  (forall x, mget x mo = option_map (map transmute) (nonempty (ours_at x))) ->
  (forall x, mget x mw = option_map (map transmute) (nonempty (made_at x))) ->
  mget (Some w) mo <> None \/ mget w mw <> None ->
  witness_ops ord k c mo mw w = group_ops (Some w).
Proof.
  intros Ho Hw Hne. unfold witness_ops, mc_witness_ord.
  assert (Hk : exists o, mget w (mc_filter c) = Some o).
  { destruct Hne as [Hne|Hne].
    - rewrite Ho in Hne. destruct (ours_at (Some w)) as [|a l] eqn:E; [cbn in Hne; congruence|].
      assert (Ha : In a (ours_at (Some w))) by (rewrite E; left; reflexivity). apply In_ours_at in Ha as (Ha & _ & Ew). eapply known_witness; eauto.
    - rewrite Hw in Hne. destruct (made_at w) as [|a l] eqn:E; [cbn in Hne; congruence|].
      assert (Ha : In a (made_at w)) by (rewrite E; left; reflexivity). apply In_made_at in Ha as (Ha & _ & Ew). eapply known_witness; eauto. }
  destruct Hk as [o Eo]. rewrite Eo. cbn [expect rbind]. cbv zeta. rewrite Ho, Hw. unfold group_ops. cbn [group info_of].
  rewrite Eo. cbn [option_map]. pose proof (difference_spec w) as Hd.
  destruct (made_at w) as [|m M] eqn:Em.
  - cbn [nonempty option_map fst snd]. destruct (ours_at (Some w)) as [|x X] eqn:Eo'; cbn [nonempty option_map].
    + exfalso. rewrite Ho, Hw, Eo', Em in Hne. cbn in Hne. tauto.
    + reflexivity.
  - cbn [nonempty option_map fst snd]. destruct (ours_at (Some w)) as [|x X] eqn:Eo'.
    + cbn [nonempty option_map]. assert (Ef : filter (fun a => negb (passes fo a)) (m :: M) = m :: M).
      { apply filter_id. rewrite <- Em. apply Forall_forall. intros a Ha. apply In_made_at in Ha as (Ha & _ & Ew). apply negb_true_iff, not_true_iff_false. intros Hp.
        assert (Hi : In a (ours_at (Some w))) by (apply In_ours_at; auto). rewrite Eo' in Hi. destruct Hi. }
      rewrite Ef. reflexivity.
    + cbn [nonempty option_map]. rewrite Hd. destruct (filter (fun a => negb (passes fo a)) (m :: M)); reflexivity.
Qed.
End Ops.

Lemma NoDup_app_intro {A} (l1 l2 : list A) : NoDup l1 -> NoDup l2 -> (forall x, In x l1 -> ~ In x l2) -> NoDup (l1 ++ l2).
Proof.
  intros N1 N2 D. induction l1 as [|x l1 IH]; [exact N2|]. inversion N1; subst. cbn. constructor.
  - rewrite in_app_iff. intros [Hx|Hx]; [contradiction|exact (D x (or_introl eq_refl) Hx)].
  - apply IH; [assumption|]. intros y Hy. apply D. right. exact Hy.
Qed.

(** ** Sequences of results *)
Section Seq.
Context {X B : Type} (f : X -> result ContractError (list B)).
Definition gather : list B -> list X -> result ContractError (list B) := rfold (fun acc x => let! l := f x in Ok (acc ++ l)).
Lemma gather_ok xs acc r : gather acc xs = Ok r <-> exists ls, Forall2 (fun x l => f x = Ok l) xs ls /\ r = acc ++ concat ls.
Proof.
  revert acc. induction xs as [|x xs IH]; intros acc; unfold gather in *; cbn [rfold].
  - split.
    + intros E. apply Ok_inj in E. subst. exists []. split; [constructor|cbn; rewrite app_nil_r; reflexivity].
    + intros (ls & F & ->). inversion F; subst. cbn. rewrite app_nil_r. reflexivity.
  - destruct (f x) as [l|e|] eqn:E; cbn [rbind].
    + rewrite IH. split.
      * intros (ls & F & ->). exists (l :: ls). split; [constructor; assumption|]. cbn. rewrite app_assoc. reflexivity.
      * intros (ls & F & ->). inversion F as [|? l' ? ls' E' F']; subst. rewrite E in E'. apply Ok_inj in E'. subst l'.
        exists ls'. split; [exact F'|]. cbn. rewrite app_assoc. reflexivity.
    + split; [discriminate|]. intros (ls & F & _). inversion F as [|? ? ? ? E' F']; subst. rewrite E in E'. discriminate E'.
    + split; [discriminate|]. intros (ls & F & _). inversion F as [|? ? ? ? E' F']; subst. rewrite E in E'. discriminate E'.
Qed.
Lemma gather_panic xs acc : (forall x e, f x <> Err e) ->
  (gather acc xs = Panic <-> exists x, In x xs /\ f x = Panic) /\ forall e, gather acc xs <> Err e.
Proof.
  intros Ne. revert acc. induction xs as [|x xs IH]; intros acc; unfold gather in *; cbn [rfold].
  - split; [|discriminate]. split; [discriminate|intros (x & [] & _)].
  - destruct (f x) as [l|e|] eqn:E; cbn [rbind].
    + destruct (IH (acc ++ l)) as [H1 H2]. split; [|exact H2]. rewrite H1. split.
      * intros (y & Hy & Ey). exists y. split; [right; exact Hy|exact Ey].
      * intros (y & [<-|Hy] & Ey); [congruence|eauto].
    + exfalso. exact (Ne x e E).
    + split; [|discriminate]. split; [intros _; exists x; split; [left; reflexivity|exact E]|reflexivity].
Qed.
End Seq.

(** ** One group *)

Definition amount_in (a : Owned) : N := match ow_state a with AlAmount v => v | _ => 0 end.
Lemma sum_amounts (l : list Owned) acc : (forall a, In a l -> exists v, ow_state a = AlAmount v) -> acc <= U64MAX ->
  rfold (fun acc a => let! v := unwrap_fungible (ow_state a) in Ok (saturating_add acc v)) acc l =
  (Ok (N.min (acc + list_sum (map amount_in l)) U64MAX) : result ContractError N).
Proof.
  revert acc. induction l as [|a l IH]; intros acc Ht Hb; cbn [rfold map].
  - f_equal. unfold list_sum. cbn [fold_right]. lia.
  - destruct (Ht a (or_introl eq_refl)) as [v Ev]. rewrite Ev. cbn [unwrap_fungible rbind].
    rewrite IH; [|intros x Hx; apply Ht; right; exact Hx|rewrite sat_add_min; lia].
    f_equal. rewrite sat_add_min. unfold amount_in at 2. rewrite Ev. unfold list_sum. cbn [fold_right]. lia.
Qed.

Lemma reduce_spec (l : list Owned) : l <> [] ->
  (forall ty, reduce_to_ty l = Ok ty <-> forall a, In a l -> oo_ty (ow_opout a) = ty) /\
  (reduce_to_ty l = Panic <-> exists a b, In a l /\ In b l /\ oo_ty (ow_opout a) <> oo_ty (ow_opout b)) /\
  forall e, reduce_to_ty l <> Err e.
Proof.
  intros Hne. unfold reduce_to_ty.
  assert (Hin : forall x, In x (map (fun a => oo_ty (ow_opout a)) l) <-> exists a, In a l /\ oo_ty (ow_opout a) = x).
  { intros x. rewrite in_map_iff. split; intros (a & H1 & H2); eauto. }
  destruct (map (fun a => oo_ty (ow_opout a)) l) as [|t ts] eqn:E; [destruct l; [congruence|discriminate E]|]. clear E.
  assert (F : (rfold (fun t1 t2 => if t1 =? t2 then Ok t1 else Panic) t ts = (Ok t : result ContractError N) /\ forall x, In x ts -> x = t) \/
              (rfold (fun t1 t2 => if t1 =? t2 then Ok t1 else Panic) t ts = (Panic : result ContractError N) /\ exists x, In x ts /\ x <> t)).
  { clear Hin. induction ts as [|t' ts IH]; cbn [rfold]; [left; split; [reflexivity|intros x []]|].
    destruct (N.eqb_spec t t') as [Et|Nt]; cbn [rbind].
    - destruct IH as [[F1 F2]|[F1 (x & Hx & Nx)]]; [left|right]; (split; [exact F1|]).
      + intros x [<-|Hx]; auto.
      + exists x. split; [right; exact Hx|exact Nx].
    - right. split; [reflexivity|]. exists t'. split; [left; reflexivity|congruence]. }
  destruct (proj1 (Hin t) (or_introl eq_refl)) as (a0 & Ha0 & E0).
  destruct F as [[-> F]|[-> (x & Hx & Nx)]].
  - assert (All : forall a, In a l -> oo_ty (ow_opout a) = t).
    { intros a Ha. destruct (proj2 (Hin (oo_ty (ow_opout a)))) as [Et|Hx]; [eauto|congruence|auto]. }
    split; [|split; [|discriminate]].
    + intros ty. split; [intros E; apply Ok_inj in E; subst; exact All|]. intros Ht. f_equal. rewrite <- E0. apply Ht, Ha0.
    + split; [discriminate|]. intros (a & b & Ha & Hb & Nab). exfalso. apply Nab. rewrite (All a Ha), (All b Hb). reflexivity.
  - destruct (proj1 (Hin x) (or_intror Hx)) as (a1 & Ha1 & E1).
    split; [|split; [|discriminate]].
    + intros ty. split; [discriminate|]. intros Ht. exfalso. apply Nx. rewrite <- E1, <- E0, (Ht a1 Ha1), (Ht a0 Ha0). reflexivity.
    + split; [|reflexivity]. intros _. exists a1, a0. repeat split; auto. congruence.
Qed.

Section Group.
Context (ord : list Owned -> list Owned) (Hord : forall s, Permutation s (ord s)).

Lemma In_ord s x : In x (ord s) <-> In x s.
Proof. split; intros Hx; eapply Permutation_in; try exact Hx; [apply Permutation_sym|]; apply Hord. Qed.
Lemma ord_nonempty s : s <> [] -> ord s <> [].
Proof. intros Hs E. apply Hs. pose proof (Hord s) as P. rewrite E in P. apply Permutation_nil. apply Permutation_sym, P. Qed.

Lemma fungible_spec c d w i g : g <> [] -> (forall a, In a g -> kind_of (oa_state a) = KFungible) -> witness_of c w i ->
  (forall op, fungible ord d i (map transmute g) = Ok op -> sums_up c d w g op) /\
  (fungible ord d i (map transmute g) = Panic <-> exists a b, In a g /\ In b g /\ oo_ty (oa_opout a) <> oo_ty (oa_opout b)) /\
  forall e, fungible ord d i (map transmute g) <> Err e.
Proof.
  intros Hne Ht Hi. unfold fungible.
  assert (Hm : forall a, In a (map transmute g) -> exists v, ow_state a = AlAmount v).
  { intros a Ha. apply in_map_iff in Ha as (b & <- & Hb). specialize (Ht b Hb). cbn. destruct (oa_state b); try discriminate Ht. cbn. eauto. }
  rewrite (sum_amounts (ord (map transmute g)) 0); [|intros a Ha; apply Hm, In_ord, Ha|unfold U64MAX; lia].
  cbn [rbind].
  assert (Hs : 0 + list_sum (map amount_in (ord (map transmute g))) = list_sum (map amount_of g)).
  { rewrite N.add_0_l. transitivity (list_sum (map amount_in (map transmute g))).
    - apply list_sum_perm. apply Permutation_map, Permutation_sym, Hord.
    - rewrite map_map. f_equal. apply map_ext. intros a. unfold amount_in, amount_of. cbn. destruct (oa_state a); reflexivity. }
  rewrite Hs. clear Hs.
  assert (Hne' : ord (map transmute g) <> []) by (apply ord_nonempty; destruct g; [congruence|discriminate]).
  destruct (reduce_spec _ Hne') as (R1 & R2 & R3).
  assert (Hex : forall P : Owned -> Prop, (exists a, In a (ord (map transmute g)) /\ P a) <-> exists a, In a g /\ P (transmute a)).
  { intros P. split.
    - intros (a & Ha & Hp). apply In_ord, in_map_iff in Ha as (b & <- & Hb). eauto.
    - intros (a & Ha & Hp). exists (transmute a). split; [apply In_ord, in_map, Ha|exact Hp]. }
  destruct (reduce_to_ty (ord (map transmute g))) as [ty|e|] eqn:E; cbn [rbind].
  - split; [|split; [|discriminate]].
    + intros op Eo. apply Ok_inj in Eo. subst op. unfold sums_up. cbn [co_direction co_ty co_opids co_state co_to co_witness].
      split; [reflexivity|]. split. { intros a Ha. exact (proj1 (R1 ty) eq_refl (transmute a) (proj2 (In_ord _ _) (in_map _ _ _ Ha))). }
      split; [apply sfrom_sorted|]. split.
      { intros x. rewrite sfrom_In, in_map_iff. rewrite <- (Hex (fun a => oo_op (ow_opout a) = x)). split; intros (a & H1 & H2); eauto. }
      split; [reflexivity|]. split; [apply sfrom_sorted|]. split; [|exact Hi].
      intros x. rewrite sfrom_In, in_map_iff. rewrite <- (Hex (fun a => ow_seal a = x)). split; intros (a & H1 & H2); eauto.
    + split; [discriminate|]. intros (a & b & Ha & Hb & Nab). exfalso. apply Nab.
      pose proof (proj1 (R1 ty) eq_refl (transmute a) (proj2 (In_ord _ _) (in_map _ _ _ Ha))) as E1.
      pose proof (proj1 (R1 ty) eq_refl (transmute b) (proj2 (In_ord _ _) (in_map _ _ _ Hb))) as E2. cbn in E1, E2. congruence.
  - exfalso. exact (R3 e eq_refl).
  - split; [discriminate|]. split; [|discriminate]. split; [intros _|reflexivity].
    destruct (proj1 R2 eq_refl) as (a & b & Ha & Hb & Nab). apply In_ord, in_map_iff in Ha as (a' & <- & Ha). apply In_ord, in_map_iff in Hb as (b' & <- & Hb).
    exists a', b'. auto.
Qed.

Lemma non_fungible_spec c d w i g : (forall a, In a g -> oa_witness a = w) -> witness_of c w i ->
  exists g', Permutation g g' /\ Forall2 (reports c d) g' (non_fungible ord d i (map transmute g)).
Proof.
  intros Hw Hi. unfold non_fungible. destruct (Permutation_map_inv transmute g (Permutation_sym (Hord (map transmute g)))) as (g' & Eg & P).
  exists g'. split; [exact P|]. rewrite Eg.
  assert (Hw' : forall a, In a g' -> oa_witness a = w) by (intros a Ha; apply Hw; eapply Permutation_in; [apply Permutation_sym, P|exact Ha]).
  clear -Hw' Hi. induction g' as [|a g' IH]; cbn [map]; [constructor|].
  constructor; [|apply IH; intros x Hx; apply Hw'; right; exact Hx].
  unfold reports. cbn. rewrite (Hw' a (or_introl eq_refl)).
  assert (Hs : shown (oa_state a) (allocated (oa_state a))) by (destruct (oa_state a); reflexivity). auto 10.
Qed.
End Group.

(** ** All of them *)

Section Main.
Context (ord : list Owned -> list Owned) (Hord : forall s, Permutation s (ord s)).
Context (k : StateKind) (c : MemContract) (fo fw : AFilter).
Notation A := (outs_all k c).
Context (ND : NoDup (map okey A)) (Typed : forall a, In a A -> kind_of (oa_state a) = k).

Definition seen (w : option WitnessId) : Prop := exists d a, deals fo fw A d w a.

Lemma fold_ids mo mw w : In w (fold_left (fun s w => sinsert w s) (filter_map (fun w => w) (mkeys (mo : omap (option WitnessId) (list Owned)))) (sfrom (mkeys (mw : omap WitnessId (list Owned))))) <->
  In (Some w) (mkeys mo) \/ In w (mkeys mw).
Proof.
  rewrite fold_sinsert_In, sfrom_In. unfold filter_map. split.
  - intros [Hi|Hi]; [left|right; exact Hi]. induction (mkeys mo) as [|[x|] l IH]; cbn in Hi |- *; [destruct Hi| |].
    + destruct Hi as [->|Hi]; [left; reflexivity|right; apply IH, Hi].
    + right. apply IH, Hi.
  - intros [Hi|Hi]; [left|right; exact Hi]. induction (mkeys mo) as [|[x|] l IH]; cbn in Hi |- *; [destruct Hi| |].
    + destruct Hi as [E|Hi]; [injection E as ->; left; reflexivity|right; apply IH, Hi].
    + destruct Hi as [E|Hi]; [discriminate E|apply IH, Hi].
Qed.

Lemma deals_witness d w a : deals fo fw A d w a -> oa_witness a = w.
Proof. intros [_ Hd]. destruct d, w; try contradiction; apply Hd. Qed.

(** The operations are those of the groups of witnesses in order, the issue first. *)
Lemma operations_groups : (forall a, In a A -> made fw a -> oa_witness a <> None) ->
  exists ids, ssorted ids /\ (forall w, seen (Some w) -> In w ids) /\
    (forall w, In w ids -> exists a, In a A /\ oa_witness a = Some w) /\
    operations ord k c fo fw = gather (group_ops ord k c fo fw) [] (None :: map Some ids).
Proof.
  intros Hw. unfold operations. destruct (our_witness fw A) as [mw|e|] eqn:Em.
  2:{ exfalso. exact (proj2 (grouped_panics _) e Em). }
  2:{ exfalso. apply grouped_panics in Em as (a & Ha & Ew). apply filter_In in Ha as [Ha Hp]. exact (Hw a Ha Hp Ew). }
  cbn [rbind]. cbv zeta.
  destruct (grouped_result _ mw (ND_filter k c ND (passes fw)) Em) as [Sw Gw].
  destruct (grouped [] oa_witness (filter (passes fo) A) (our_outpoint fo A) eq_refl (ND_filter k c ND (passes fo)) eq_refl) as [So Go].
  set (ids := fold_left _ _ _).
  assert (Hids : forall w, In w ids <-> mget (Some w) (our_outpoint fo A) <> None \/ mget w mw <> None).
  { intros w. unfold ids. rewrite fold_ids. rewrite !mget_Some_in. split; (intros [H1|H1]; [left|right]).
    - destruct H1 as [v E]. congruence.
    - destruct H1 as [v E]. congruence.
    - destruct (mget (Some w) (our_outpoint fo A)); [eauto|congruence].
    - destruct (mget w mw); [eauto|congruence]. }
  exists ids. split; [unfold ids; apply fold_sinsert_sorted, sfrom_sorted|]. split; [|split].
  - intros w (d & a & Hd). apply Hids. pose proof (group_direction _ _ _ _ _ _ _ Hd) as Ed. pose proof (deals_witness _ _ _ Hd) as Ew.
    destruct Hd as [Ha Hd]. destruct d; try contradiction.
    + left. rewrite Go. destruct Hd as (_ & Ho & _). assert (Hi : In a (ours_at k c fo (Some w))) by (apply In_ours_at; auto).
      unfold ours_at in Hi. destruct (filter _ (filter (passes fo) A)); [destruct Hi|discriminate].
    + right. rewrite Gw. destruct Hd as (_ & Ho & _). assert (Hi : In a (made_at k c fw w)) by (apply In_made_at; auto).
      unfold made_at in Hi. destruct (filter _ (filter (passes fw) A)); [destruct Hi|discriminate].
  - intros w Hi. apply Hids in Hi. rewrite Go, Gw in Hi. destruct Hi as [Hi|Hi].
    + destruct (filter (fun a => keqb (oa_witness a) (Some w)) (filter (passes fo) A)) as [|a l] eqn:E; [cbn in Hi; congruence|].
      assert (Ha : In a (ours_at k c fo (Some w))) by (unfold ours_at; rewrite E; left; reflexivity). apply In_ours_at in Ha. exists a. tauto.
    + destruct (filter (fun a => keqb (oa_witness a) (Some w)) (filter (passes fw) A)) as [|a l] eqn:E; [cbn in Hi; congruence|].
      assert (Ha : In a (made_at k c fw w)) by (unfold made_at; rewrite E; left; reflexivity). apply In_made_at in Ha. exists a. tauto.
  - unfold gather. cbn [rfold].
    assert (Eg : (match mget None (our_outpoint fo A) with Some s => ops_of ord k Issued None s | None => Ok [] end) = group_ops ord k c fo fw None).
    { rewrite Go. unfold group_ops. cbn [group snd fst info_of]. fold (ours_at k c fo None). destruct (ours_at k c fo None); reflexivity. }
    rewrite Eg. destruct (group_ops ord k c fo fw None) as [l|e|]; cbn [rbind]; [|reflexivity|reflexivity]. cbn [app].
    assert (Hsub : forall w, In w ids -> mget (Some w) (our_outpoint fo A) <> None \/ mget w mw <> None) by (intros w; apply Hids).
    clear Hids Eg. revert l. induction ids as [|w ids' IH]; intros l; cbn [map rfold]; [reflexivity|].
    rewrite (witness_ops_group ord k c fo fw ND) by (try assumption; apply Hsub; left; reflexivity).
    destruct (group_ops ord k c fo fw (Some w)) as [l'|e|]; cbn [rbind]; [|reflexivity|reflexivity].
    apply IH. intros x Hx. apply Hsub. right. exact Hx.
Qed.

Lemma operations_panic_first : (exists a, In a A /\ made fw a /\ oa_witness a = None) -> operations ord k c fo fw = Panic.
Proof.
  intros (a & Ha & Hm & Ew). unfold operations. assert (E : our_witness fw A = Panic).
  { apply grouped_panics. exists a. split; [apply filter_In; auto|exact Ew]. }
  rewrite E. reflexivity.
Qed.

Lemma seen_witness w : (forall a, In a (snd (group k c fo fw w)) -> oa_witness a = w) /\ (snd (group k c fo fw w) <> [] -> witness_of c w (info_of c w)).
Proof.
  assert (H1 : forall a, In a (snd (group k c fo fw w)) -> oa_witness a = w).
  { intros a Ha. apply (In_group k c fo fw a _ w eq_refl) in Ha. exact (deals_witness _ _ _ Ha). }
  split; [exact H1|]. intros Hn. destruct w as [w|]; cbn [witness_of info_of]; [|reflexivity].
  destruct (snd (group k c fo fw (Some w))) as [|a g] eqn:E; [congruence|].
  assert (Ha : In a (snd (group k c fo fw (Some w)))) by (rewrite E; left; reflexivity). apply (In_group k c fo fw a _ (Some w) eq_refl) in Ha.
  destruct (known_witness k c a w (proj1 Ha) (deals_witness _ _ _ Ha)) as [o Eo]. exists o. rewrite Eo. auto.
Qed.

Lemma group_ops_err w e : group_ops ord k c fo fw w <> Err e.
Proof.
  unfold group_ops. pose proof (seen_witness w) as [H1 H2]. destruct (snd (group k c fo fw w)) as [|a g] eqn:E; [discriminate|].
  unfold ops_of. destruct k eqn:Ek; try discriminate. 
  destruct (fungible_spec ord Hord c (fst (group KFungible c fo fw w)) w (info_of c w) (a :: g)) as (_ & _ & F);
    [discriminate| |apply H2; discriminate|].
  - intros b Hb. apply Typed. rewrite <- E in Hb. apply (In_group KFungible c fo fw b _ w eq_refl) in Hb. apply Hb.
  - destruct (fungible _ _ _ _) as [op|e'|] eqn:Ef; cbn [rbind]; try discriminate. intros _. exact (F e' eq_refl).
Qed.

Lemma group_ops_panic w : group_ops ord k c fo fw w = Panic <->
  k = KFungible /\ exists d a b, deals fo fw A d w a /\ deals fo fw A d w b /\ oo_ty (oa_opout a) <> oo_ty (oa_opout b).
Proof.
  unfold group_ops. pose proof (seen_witness w) as [H1 H2].
  assert (Hd : (exists d a b, deals fo fw A d w a /\ deals fo fw A d w b /\ oo_ty (oa_opout a) <> oo_ty (oa_opout b)) <->
    exists a b, In a (snd (group k c fo fw w)) /\ In b (snd (group k c fo fw w)) /\ oo_ty (oa_opout a) <> oo_ty (oa_opout b)).
  { split.
    - intros (d & a & b & Ha & Hb & N). exists a, b. pose proof (group_direction _ _ _ _ _ _ _ Ha) as Ed.
      rewrite (In_group k c fo fw a d w Ed), (In_group k c fo fw b d w Ed). auto.
    - intros (a & b & Ha & Hb & N). exists (fst (group k c fo fw w)), a, b.
      rewrite <- (In_group k c fo fw a _ w eq_refl), <- (In_group k c fo fw b _ w eq_refl). auto. }
  rewrite Hd. clear Hd. destruct (snd (group k c fo fw w)) as [|a g] eqn:E.
  { split; [discriminate|]. intros (_ & a & b & [] & _). }
  unfold ops_of. destruct k eqn:Ek; try (split; [discriminate|intros [Ek' _]; discriminate Ek']).
  destruct (fungible_spec ord Hord c (fst (group KFungible c fo fw w)) w (info_of c w) (a :: g)) as (_ & F & _);
    [discriminate| |apply H2; discriminate|].
  - intros b Hb. apply Typed. rewrite <- E in Hb. apply (In_group KFungible c fo fw b _ w eq_refl) in Hb. apply Hb.
  - split.
    + intros Ef. split; [reflexivity|]. apply F. destruct (fungible _ _ _ _); cbn [rbind] in Ef; try discriminate Ef. reflexivity.
    + intros [_ Hx]. apply F in Hx. rewrite Hx. reflexivity.
Qed.

Theorem operations_panic : (forall e, operations ord k c fo fw <> Err e) /\
  (operations ord k c fo fw = Panic <->
   (exists a, In a A /\ made fw a /\ oa_witness a = None) \/
   (k = KFungible /\ exists d w a b, deals fo fw A d w a /\ deals fo fw A d w b /\ oo_ty (oa_opout a) <> oo_ty (oa_opout b))).
Proof.
  assert (Dec : (exists a, In a A /\ made fw a /\ oa_witness a = None) \/ (forall a, In a A -> made fw a -> oa_witness a <> None)).
  { destruct (existsb (fun a => passes fw a && keqb (oa_witness a) None) A) eqn:E.
    - left. apply existsb_exists in E as (a & Ha & E). apply andb_true_iff in E as [E1 E2]. apply keqb_true in E2. exists a. auto.
    - right. intros a Ha Hm Ew. rewrite <- not_true_iff_false in E. apply E. apply existsb_exists. exists a. split; [exact Ha|].
      unfold made in Hm. unfold passes. rewrite Hm, Ew. reflexivity. }
  destruct Dec as [Hbad|Hgood].
  { rewrite (operations_panic_first Hbad). split; [discriminate|]. split; [auto|reflexivity]. }
  destruct (operations_groups Hgood) as (ids & Si & Hs & Ha & ->).
  destruct (gather_panic (group_ops ord k c fo fw) (None :: map Some ids) [] group_ops_err) as [G1 G2].
  split; [exact G2|]. rewrite G1. split.
  - intros (w & Hw & Hp). right. apply group_ops_panic in Hp as (Hk & d & a & b & Hx). eauto 10.
  - intros [(a & Hin & Hm & Ew)|(Hk & d & w & a & b & Hd1 & Hd2 & Nt)]; [exfalso; exact (Hgood a Hin Hm Ew)|].
    exists w. split.
    + destruct w as [w|]; [right; apply in_map, Hs; exists d, a; exact Hd1|left; reflexivity].
    + apply group_ops_panic. split; [exact Hk|]. eauto 10.
Qed.

Lemma operations_ok ops : operations ord k c fo fw = Ok ops ->
  exists ids ls, ssorted ids /\ (forall w, seen (Some w) -> In w ids) /\
    Forall2 (fun w l => group_ops ord k c fo fw w = Ok l) (None :: map Some ids) ls /\ ops = concat ls.
Proof.
  intros E. assert (Hgood : forall a, In a A -> made fw a -> oa_witness a <> None).
  { intros a Ha Hm Ew. rewrite operations_panic_first in E by eauto. discriminate E. }
  destruct (operations_groups Hgood) as (ids & Si & Hs & Ha & Eo). rewrite Eo in E. apply gather_ok in E as (ls & F & ->). eauto 10.
Qed.

Theorem operations_each ops : k <> KFungible -> operations ord k c fo fw = Ok ops ->
  exists dealt, Forall2 (fun p op => reports c (fst p) (snd p) op) dealt ops /\
    lists dealt (fun p => deals fo fw A (fst p) (oa_witness (snd p)) (snd p)).
Proof.
  clear Typed. intros Hk E. destruct (operations_ok _ E) as (ids & ls & Si & Hs & F & ->).
  assert (NDi : NoDup (None :: map Some ids)).
  { constructor; [intros Hi; apply in_map_iff in Hi as (x & Ex & _); discriminate Ex|].
    apply FinFun.Injective_map_NoDup; [intros x y Exy; congruence|]. apply ssorted_NoDup, Si. }
  assert (Hall : forall d w a, deals fo fw A d w a -> In w (None :: map Some ids)).
  { intros d w a Hd. destruct w as [w|]; [right; apply in_map, Hs; exists d, a; exact Hd|left; reflexivity]. }
  clear Hs E Si. revert F NDi Hall. generalize (None :: map Some ids). intros ws F NDi Hall.
  assert (G : exists dealt, Forall2 (fun p op => reports c (fst p) (snd p) op) dealt (concat ls) /\ NoDup dealt /\
    forall p, In p dealt <-> In (oa_witness (snd p)) ws /\ deals fo fw A (fst p) (oa_witness (snd p)) (snd p)).
  { clear Hall. induction F as [|w l ws ls Ew F IH].
    - exists []. cbn. split; [constructor|]. split; [constructor|]. intros p. split; [intros []|intros [[] _]].
    - inversion NDi as [|? ? Hn NDi']; subst. destruct (IH NDi') as (dealt & F' & N' & M'). clear IH.
      assert (G : exists g', Permutation (snd (group k c fo fw w)) g' /\ Forall2 (reports c (fst (group k c fo fw w))) g' l).
      { unfold group_ops in Ew. pose proof (seen_witness w) as [H1 H2]. destruct (snd (group k c fo fw w)) as [|a g] eqn:Eg.
        - apply Ok_inj in Ew. subst l. exists []. split; [apply Permutation_refl|constructor].
        - unfold ops_of in Ew. assert (El : non_fungible ord (fst (group k c fo fw w)) (info_of c w) (map transmute (a :: g)) = l) by (destruct k; try (apply Ok_inj; exact Ew); congruence).
          rewrite <- El. apply non_fungible_spec with (w := w); [exact Hord|exact H1|apply H2; discriminate]. }
      destruct G as (g' & P & R). exists (map (fun a => (fst (group k c fo fw w), a)) g' ++ dealt). cbn [concat].
      split; [apply Forall2_app; [|exact F']; clear -R; induction R; cbn; constructor; auto|].
      assert (In1 : forall p, In p (map (fun a => (fst (group k c fo fw w), a)) g') <-> oa_witness (snd p) = w /\ deals fo fw A (fst p) (oa_witness (snd p)) (snd p)).
      { intros [d a]. rewrite in_map_iff. cbn [fst snd]. split.
        - intros (b & Eb & Hb). injection Eb as <- <-. assert (Hb' : In b (snd (group k c fo fw w))) by (eapply Permutation_in; [apply Permutation_sym, P|exact Hb]).
          apply (In_group k c fo fw b _ w eq_refl) in Hb'. pose proof (deals_witness _ _ _ Hb') as E1. rewrite E1. auto.
        - intros [E1 Hd]. rewrite E1 in Hd. exists a. pose proof (group_direction _ _ _ _ _ _ _ Hd) as Ed. subst d. split; [reflexivity|].
          eapply Permutation_in; [exact P|]. apply (In_group k c fo fw a _ w eq_refl), Hd. }
      split.
      + apply NoDup_app_intro; [|exact N'|].
        * apply FinFun.Injective_map_NoDup; [intros x y Exy; congruence|]. eapply Permutation_NoDup; [exact P|]. apply group_nodup, ND.
        * intros p Hp Hp'. apply In1 in Hp as [E1 _]. apply M' in Hp' as [Hp' _]. rewrite E1 in Hp'. exact (Hn Hp').
      + intros p. rewrite in_app_iff, In1, M'. cbn [In]. split; [intros [[E1 Hd]|[E1 Hd]]; auto|]. intros [[E1|E1] Hd]; auto. }
  destruct G as (dealt & F' & N' & M'). exists dealt. split; [exact F'|]. split; [exact N'|].
  intros p. rewrite M'. split; [tauto|]. intros Hd. split; [exact (Hall _ _ _ Hd)|exact Hd].
Qed.

Theorem operations_sums ops : k = KFungible -> operations ord k c fo fw = Ok ops ->
  exists groups, Forall2 (fun p op => sums_up c (fst (fst p)) (snd (fst p)) (snd p) op) groups ops /\
    NoDup (map (fun p => snd (fst p)) groups) /\
    (forall d w g, In (d, w, g) groups -> g <> [] /\ lists g (deals fo fw A d w)) /\
    (forall d w a, deals fo fw A d w a -> exists g, In (d, w, g) groups).
Proof.
  intros Hk E.
  assert (Eops : forall d i s, ops_of ord k d i s = let! o := fungible ord d i s in Ok [o]) by (intros; rewrite Hk; reflexivity).
  destruct (operations_ok _ E) as (ids & ls & Si & Hs & F & ->).
  assert (NDi : NoDup (None :: map Some ids)).
  { constructor; [intros Hi; apply in_map_iff in Hi as (x & Ex & _); discriminate Ex|].
    apply FinFun.Injective_map_NoDup; [intros x y Exy; congruence|]. apply ssorted_NoDup, Si. }
  assert (Hall : forall d w a, deals fo fw A d w a -> In w (None :: map Some ids)).
  { intros d w a Hd. destruct w as [w|]; [right; apply in_map, Hs; exists d, a; exact Hd|left; reflexivity]. }
  clear Hs E Si. revert F NDi Hall. generalize (None :: map Some ids). intros ws F NDi Hall.
  assert (G : exists groups, Forall2 (fun p op => sums_up c (fst (fst p)) (snd (fst p)) (snd p) op) groups (concat ls) /\
    NoDup (map (fun p => snd (fst p)) groups) /\ (forall p, In p groups -> In (snd (fst p)) ws) /\
    (forall d w g, In (d, w, g) groups -> g <> [] /\ lists g (deals fo fw A d w)) /\
    (forall d w a, In w ws -> deals fo fw A d w a -> exists g, In (d, w, g) groups)).
  { clear Hall. induction F as [|w l ws ls Ew F IH].
    - exists []. cbn. split; [constructor|]. split; [constructor|]. split; [intros p []|]. split; [intros d w g []|intros d w a []].
    - apply NoDup_cons_iff in NDi as [Hn NDi']. destruct (IH NDi') as (gs & F1 & F2 & F3 & F4 & F5). clear IH.
      unfold group_ops in Ew. pose proof (seen_witness w) as [H1 H2]. destruct (snd (group k c fo fw w)) as [|a g] eqn:Eg.
      + apply Ok_inj in Ew. subst l. exists gs. cbn [concat app]. split; [exact F1|]. split; [exact F2|]. split; [intros p Hp; right; apply F3, Hp|].
        split; [exact F4|]. intros d w' a [<-|Hw'] Hd; [|eauto]. exfalso.
        apply (In_group k c fo fw a d w (group_direction _ _ _ _ _ _ _ Hd)) in Hd. rewrite Eg in Hd. destruct Hd.
      + rewrite Eops in Ew. destruct (fungible ord (fst (group k c fo fw w)) (info_of c w) (map transmute (a :: g))) as [op|e|] eqn:Ef; try discriminate Ew.
        cbn [rbind] in Ew. apply Ok_inj in Ew. subst l. cbn [concat app].
        exists ((fst (group k c fo fw w), w, a :: g) :: gs). split; [constructor; [|exact F1]|].
        * cbn [fst snd]. eapply fungible_spec; [exact Hord|discriminate| |apply H2; discriminate|exact Ef].
          intros b Hb. rewrite <- Hk. apply Typed. rewrite <- Eg in Hb. apply (In_group k c fo fw b _ w eq_refl) in Hb. apply Hb.
        * cbn [map fst snd]. split; [constructor; [|exact F2]|].
          { intros Hi. apply in_map_iff in Hi as (p & Ep & Hp). apply F3 in Hp. rewrite Ep in Hp. exact (Hn Hp). }
          split; [intros p [<-|Hp]; [left; reflexivity|right; apply F3, Hp]|]. split.
          { intros d w' g' [Ei|Hi]; [|exact (F4 _ _ _ Hi)]. injection Ei as <- <- <-. split; [discriminate|]. split.
            - rewrite <- Eg. apply group_nodup, ND.
            - intros b. rewrite <- Eg. apply In_group. reflexivity. }
          { intros d w' b [<-|Hw'] Hd; [|destruct (F5 _ _ _ Hw' Hd) as [g' Hg']; exists g'; right; exact Hg'].
            exists (a :: g). left. rewrite (group_direction _ _ _ _ _ _ _ Hd). reflexivity. } }
  destruct G as (gs & F1 & F2 & F3 & F4 & F5). exists gs. split; [exact F1|]. split; [exact F2|]. split; [exact F4|].
  intros d w a Hd. exact (F5 d w a (Hall _ _ _ Hd) Hd).
Qed.
End Main.
