From Verif Require Import Base Core IfaceModel BuilderModel BuilderSpec BuilderProofs BuilderCalls BuilderComplete DetSpec.
Local Open Scope N_scope.

(** ** What is held is determined by what was put in *)
Lemma map_inj {A B} (f : A -> B) : (forall x y, f x = f y -> x = y) -> forall l l', map f l = map f l' -> l = l'.
Proof. intros Hf. induction l as [|x l IH]; intros [|y l'] E; try discriminate; [reflexivity|]. cbn in E. injection E as E1 E2. f_equal; auto. Qed.
Lemma mmap_inj {K V W} (f : V -> W) : (forall x y, f x = f y -> x = y) -> forall (m m' : omap K V), mmap f m = mmap f m' -> m = m'.
Proof. intros Hf. apply map_inj. intros [k v] [k' v'] E. cbn in E. injection E as -> E. f_equal. auto. Qed.

Section Two.
  Context (X : BuildCtx) (b b' : OpBuilder) (l l' : list Item) (R : repr X b l) (R' : repr X b' l').
  Context (S : forall k, latest (owned l) k = latest (owned l') k).

  Lemma slot_some k ty x : mget ty (slot k b) = Some x -> exists x', mget ty (slot k b') = Some x'.
  Proof.
    intros Hx. destruct (rp_slot _ _ _ R k) as [_ H]. specialize (H ty). rewrite Hx in H. destruct H as (Hne & Hs & _ & _).
    destruct x as [|[s st] x]; [contradiction|].
    assert (Hst : kind_of st = k) by (eapply (held_states X b l R); [exact Hx|left; reflexivity]).
    assert (Hg : latest (owned l') (ty, s) = Some st).
    { rewrite <- S, <- (held_latest X b l R k ty _ s Hx). cbn. rewrite keqb_refl. reflexivity. }
    apply latest_In in Hg. apply (slot_types_some _ _ ty (rp_slot _ _ _ R' k)).
    apply in_map_iff. exists (ty, s, st). split; [reflexivity|]. apply filter_In. split; [exact Hg|]. cbn. rewrite Hst. apply kind_eqb_refl.
  Qed.
End Two.

Section Same.
  Context (X : BuildCtx) (b b' : OpBuilder) (l l' : list Item) (R : repr X b l) (R' : repr X b' l').
  Context (S : forall k, latest (owned l) k = latest (owned l') k).

  Lemma slot_same k : slot k b = slot k b'.
  Proof.
    destruct (rp_slot _ _ _ R k) as [Hs H]. destruct (rp_slot _ _ _ R' k) as [Hs' H']. apply msorted_ext; [exact Hs|exact Hs'|].
    intros ty. destruct (mget ty (slot k b)) as [x|] eqn:E.
    - destruct (slot_some X b b' l l' R R' S k ty x E) as (x' & E'). rewrite E'. f_equal.
      specialize (H ty). specialize (H' ty). rewrite E in H. rewrite E' in H'. destruct H as (_ & Sx & _). destruct H' as (_ & Sx' & _).
      apply msorted_ext; [exact Sx|exact Sx'|]. intros s. rewrite (held_latest X b l R k ty x s E), (held_latest X b' l' R' k ty x' s E'). apply S.
    - destruct (mget ty (slot k b')) as [x'|] eqn:E'; [|reflexivity].
      destruct (slot_some X b' b l' l R' R (fun k => eq_sym (S k)) k ty x' E') as (x & E''). congruence.
  Qed.

  Lemma rights_same : ob_rights b = ob_rights b'.
  Proof.
    pose proof (slot_same KDeclarative) as E. cbn in E. revert E. apply mmap_inj. intros x y. apply map_inj. intros s s' E. congruence.
  Qed.
  Lemma fungible_same : ob_fungible b = ob_fungible b'.
  Proof.
    pose proof (slot_same KFungible) as E. cbn in E. revert E. apply mmap_inj. intros x y. apply mmap_inj.
    intros [v1 b1 t1] [v2 b2 t2] E. unfold amt in E. cbn in E. congruence.
  Qed.
  Lemma data_same : ob_data b = ob_data b'.
  Proof.
    pose proof (slot_same KStructured) as E. cbn in E. revert E. apply mmap_inj. intros x y. apply mmap_inj.
    intros [v1 b1] [v2 b2] E. unfold dat in E. cbn in E. congruence.
  Qed.
  Lemma attach_same : ob_attach b = ob_attach b'.
  Proof.
    pose proof (slot_same KAttachment) as E. cbn in E. revert E. apply mmap_inj. intros x y. apply mmap_inj.
    intros [v1 b1] [v2 b2] E. unfold att in E. cbn in E. congruence.
  Qed.
  Lemma global_same : (forall ty, all_for (globals l) ty = all_for (globals l') ty) -> ob_global b = ob_global b'.
  Proof.
    intros G. destruct (rp_global _ _ _ R) as [Hs Hg]. destruct (rp_global _ _ _ R') as [Hs' Hg'].
    apply msorted_ext; [exact Hs|exact Hs'|]. intros ty. rewrite Hg, Hg', G. reflexivity.
  Qed.
  Lemma tags_same : (forall ty, latest (tags l) ty = latest (tags l') ty) -> ob_tags b = ob_tags b'.
  Proof.
    intros G. destruct (rp_tags _ _ _ R) as [Hs Hg]. destruct (rp_tags _ _ _ R') as [Hs' Hg'].
    apply msorted_ext; [exact Hs|exact Hs'|]. intros ty. rewrite Hg, Hg', G. reflexivity.
  Qed.

  (** Rights of a type, when there is only one *)
  Lemma right_single : one_right l -> forall ty x, In (ty, x) (ob_rights b) -> exists s, x = [s].
  Proof.
    intros O ty x Hi. destruct (rp_slot _ _ _ R KDeclarative) as [Hs H]. cbn [slot] in *.
    assert (Hx : mget ty (mmap void_map (ob_rights b)) = Some (void_map x)).
    { apply In_mget; [exact Hs|]. apply in_map_iff. exists (ty, x). auto. }
    specialize (H ty). rewrite Hx in H. destruct H as (Hne & Sx & _ & _).
    assert (G : forall s, In s x -> latest (owned l) (ty, s) = Some RVoid).
    { intros s Hin. rewrite <- (held_latest X b l R KDeclarative ty _ s Hx). apply In_mget; [exact Sx|]. apply in_map_iff. eauto. }
    destruct x as [|s [|s' x]]; [contradiction|eauto|exfalso].
    assert (s = s') by (apply (O ty); apply G; [left|right; left]; reflexivity). subst s'.
    apply msorted_NoDup in Sx. cbn in Sx. inversion Sx as [|? ? Hn _]. apply Hn. left. reflexivity.
  Qed.

  Lemma complete_single P order order' inputs :
    (forall s, Permutation (order s) s) -> (forall s, Permutation (order' s) s) -> one_right l ->
    complete P order inputs b = complete P order' inputs b'.
  Proof.
    intros Ho Ho' O. unfold complete. rewrite <- fungible_same, <- data_same, <- attach_same, <- rights_same.
    assert (E : forall m : omap N (oset BSeal), (forall ty x, In (ty, x) m -> exists s, x = [s]) ->
      rmap_entries (fun _ l => typed_assigns KDeclarative (map (fun s => assign_of s RVoid) (order l))) m =
      rmap_entries (fun _ l => typed_assigns KDeclarative (map (fun s => assign_of s RVoid) (order' l))) m).
    { induction m as [|[ty x] m IH]; intros Hm; [reflexivity|]. cbn [rmap_entries].
      rewrite IH by (intros; eapply Hm; right; eassumption). destruct (Hm ty x (or_introl eq_refl)) as (s & ->).
      replace (order [s]) with (order' [s]); [reflexivity|].
      pose proof (Permutation_sym (Ho [s])) as A. pose proof (Permutation_sym (Ho' [s])) as A'.
      apply Permutation_length_1_inv in A. apply Permutation_length_1_inv in A'. congruence. }
    rewrite E by (intros ty x Hi; exact (right_single O ty x Hi)). reflexivity.
  Qed.
End Same.

(** ** Rights in another order *)
Definition rel_ta (t t' : TypedAssigns) : Prop :=
  ta_kind t = ta_kind t' /\ (ta_kind t <> KDeclarative -> ta_list t = ta_list t') /\ Permutation (ta_list t) (ta_list t').
Definition rel_p (p q : N * TypedAssigns) : Prop := fst p = fst q /\ rel_ta (snd p) (snd q).
Lemma same_assigns_iff a a' : same_assigns a a' <-> Forall2 rel_p a a'.
Proof. unfold same_assigns, rel_p, rel_ta. reflexivity. Qed.
Lemma rel_refl m : Forall2 rel_p m m.
Proof. induction m; constructor; [split; [reflexivity|split; [reflexivity|split; [reflexivity|apply Permutation_refl]]]|assumption]. Qed.

Lemma rel_len a a' : Forall2 rel_p a a' -> len a = len a'.
Proof. intros H. unfold len. f_equal. induction H; cbn; congruence. Qed.
Lemma rel_insert a a' k t t' : Forall2 rel_p a a' -> rel_ta t t' -> Forall2 rel_p (minsert k t a) (minsert k t' a').
Proof.
  intros H Ht. induction H as [|[k1 t1] [k2 t2] a a' [E Hp] H IH]; [constructor; [split; auto|constructor]|].
  cbn in E. subst k2. cbn [minsert]. destruct (cmp k k1).
  - constructor; [split; auto|exact H].
  - constructor; [split; auto|]. constructor; [split; auto|exact H].
  - constructor; [split; auto|exact IH].
Qed.
Lemma rel_extend m m' : Forall2 rel_p m m' -> forall a a', Forall2 rel_p a a' ->
  same_result (Forall2 rel_p) (extend_assigns a m) (extend_assigns a' m').
Proof.
  unfold extend_assigns. induction 1 as [|[k t] [k' t'] m m' [E Ht] H IH]; intros a a' Ha; [exact Ha|]. cbn in E, Ht. subst k'.
  cbn [rfold fst snd]. unfold cinsert. rewrite <- (rel_len _ _ Ha). destruct (len a <? U8MAX); cbn [expect rbind]; [|exact Logic.I].
  apply IH. apply rel_insert; assumption.
Qed.

Lemma same_bind {E A B} (R : A -> A -> Prop) (Q : B -> B -> Prop) (r r' : result E A) (f f' : A -> result E B) :
  same_result R r r' -> (forall a a', R a a' -> same_result Q (f a) (f' a')) -> same_result Q (rbind r f) (rbind r' f').
Proof. destruct r, r'; cbn; try contradiction; auto. Qed.
Lemma same_refl {E A} (R : A -> A -> Prop) (r : result E A) : (forall a, R a a) -> same_result R r r.
Proof. destruct r; cbn; auto. Qed.

Lemma complete_perm P order order' inputs b :
  (forall s, Permutation (order s) s) -> (forall s, Permutation (order' s) s) ->
  same_result (Forall2 rel_p) (complete P order inputs b) (complete P order' inputs b).
Proof.
  intros Ho Ho'. unfold complete.
  eapply (same_bind eq); [apply same_refl; reflexivity|intros f ? <-].
  eapply (same_bind eq); [apply same_refl; reflexivity|intros d ? <-].
  eapply (same_bind (Forall2 rel_p)).
  - induction (ob_rights b) as [|[ty x] m IH]; [constructor|]. cbn [rmap_entries].
    apply (same_bind rel_ta).
    + assert (Hp : Permutation (order x) (order' x)) by (rewrite Ho, Ho'; apply Permutation_refl).
      pose proof (Permutation_map (fun s => assign_of s RVoid) Hp) as Hm. unfold typed_assigns.
      replace (len (map (fun s => assign_of s RVoid) (order' x))) with (len (map (fun s => assign_of s RVoid) (order x)))
        by (unfold len; rewrite (Permutation_length Hm); reflexivity).
      destruct (map (fun s => assign_of s RVoid) (order x)) as [|a1 r1] eqn:E1.
      * apply Permutation_nil in Hm. rewrite Hm. exact Logic.I.
      * destruct (map (fun s => assign_of s RVoid) (order' x)) as [|a2 r2] eqn:E2; [apply Permutation_sym, Permutation_nil in Hm; discriminate|].
        destruct (_ <=? _); [|exact Logic.I]. cbn. split; [reflexivity|]. split; [cbn; congruence|exact Hm].
    + intros t t' Ht. apply (same_bind (Forall2 rel_p)); [exact IH|]. intros m1 m2 Hm. constructor; [split; [reflexivity|exact Ht]|exact Hm].
  - intros r r' Hr. eapply (same_bind eq); [apply same_refl; reflexivity|intros at' ? <-].
    eapply (same_bind eq); [apply same_refl; reflexivity|intros a ? <-].
    eapply (same_bind (Forall2 rel_p)); [apply rel_extend; [exact Hr|apply rel_refl]|].
    intros a1 a2 Ha. apply rel_extend; [apply rel_refl|exact Ha].
Qed.

(** ** Calls in another order *)
Lemma latest_perm {K V} `{OrdKey K} (l l' : list (K * V)) k : NoDup (map fst l) -> Permutation l l' -> latest l k = latest l' k.
Proof.
  intros Hn Hp. assert (Hn' : NoDup (map fst l')) by (eapply Permutation_NoDup; [apply Permutation_map; exact Hp|exact Hn]).
  assert (Hu : forall (q : list (K * V)) v w, NoDup (map fst q) -> In (k, v) q -> In (k, w) q -> v = w).
  { induction q as [|[k0 v0] q IH]; intros v w Hq Hv Hw; [destruct Hv|]. cbn in Hq. apply NoDup_cons_iff in Hq as [Hnq Hq].
    destruct Hv as [E|Hv], Hw as [E'|Hw]; [congruence| | |eauto].
    - injection E as -> ->. destruct Hnq. change k with (fst (k, w)). apply in_map. exact Hw.
    - injection E' as -> ->. destruct Hnq. change k with (fst (k, v)). apply in_map. exact Hv. }
  destruct (latest l k) as [v|] eqn:E.
  - apply latest_In in E. eapply Permutation_in in E; [|exact Hp].
    destruct (latest l' k) as [w|] eqn:E'.
    + apply latest_In in E'. f_equal. exact (Hu l' v w Hn' E E').
    + apply latest_none in E'. destruct E'. change k with (fst (k, v)). apply in_map. exact E.
  - destruct (latest l' k) as [w|] eqn:E'; [|reflexivity]. apply latest_none in E. apply latest_In in E'.
    eapply Permutation_in in E'; [|symmetry; exact Hp]. destruct E. change k with (fst (k, w)). apply in_map. exact E'.
Qed.
Lemma filter_map_perm {A B} (f : A -> option B) l l' : Permutation l l' -> Permutation (filter_map f l) (filter_map f l').
Proof.
  induction 1 as [|x l l' _ IH|x y l|l l1 l2 _ IH1 _ IH2]; cbn.
  - constructor.
  - destruct (f x); [constructor|]; exact IH.
  - destruct (f x), (f y); try apply Permutation_refl. apply perm_swap.
  - etransitivity; eassumption.
Qed.
Definition is_nonce (i : Item) : option N := match i with ItNonce m => Some m | _ => None end.
Lemma nonce_filter l n0 : fold_left (fun n i => match i with ItNonce m => m | _ => n end) l n0 = last (filter_map is_nonce l) n0.
Proof.
  assert (L : forall (q : list N) a b, last (a :: q) b = last q a).
  { induction q as [|c q IH]; intros a b; [reflexivity|]. change (last (a :: c :: q) b) with (last (c :: q) b). rewrite !IH. reflexivity. }
  revert n0. induction l as [|i l IH]; intros n0; [reflexivity|]. cbn [fold_left filter_map]. rewrite IH.
  destruct i; cbn [is_nonce]; try reflexivity. rewrite L. reflexivity.
Qed.
Lemma filter_map_In' {A B} (f : A -> option B) l y : In y (filter_map f l) <-> exists x, In x l /\ f x = Some y.
Proof.
  induction l as [|x l IH]; cbn; [split; [intros []|intros (? & [] & _)]|]. destruct (f x) as [z|] eqn:E; cbn; rewrite IH; split.
  - intros [<-|(x' & ? & ?)]; eauto.
  - intros (x' & [<-|Hi] & Hf); [left; congruence|right; eauto].
  - intros (x' & ? & ?). eauto.
  - intros (x' & [<-|Hi] & Hf); [congruence|eauto].
Qed.
Lemma reordered_same l l' : reordered l l' -> same_contract l l'.
Proof.
  intros [Hp Hg Ho Hi Ht Hn]. repeat constructor.
  - exact Hg.
  - intros k. apply latest_perm; [exact Ho|apply filter_map_perm; exact Hp].
  - intros k. apply latest_perm; [exact Hi|apply filter_map_perm; exact Hp].
  - unfold nonce_of. rewrite !nonce_filter. pose proof (filter_map_perm is_nonce _ _ Hp) as Q.
    assert (Hs : (length (filter_map is_nonce l) <= 1)%nat).
    { clear - Hn. destruct (filter_map is_nonce l) as [|n q] eqn:E; [cbn; lia|]. destruct q as [|m q]; [cbn; lia|exfalso].
      assert (exists l1 l2, l = l1 ++ ItNonce n :: l2 /\ In m (filter_map is_nonce l2)) as (l1 & l2 & El & Hm).
      { clear Hn. revert n m q E. induction l as [|i l IH]; intros n m q E; [discriminate|]. cbn in E. destruct (is_nonce i) as [k|] eqn:Ei.
        - injection E as -> E. destruct i; cbn in Ei; try discriminate. injection Ei as ->. exists [], l. split; [reflexivity|]. rewrite E. left. reflexivity.
        - destruct (IH _ _ _ E) as (l1 & l2 & -> & Hm). exists (i :: l1), l2. auto. }
      apply filter_map_In' in Hm as (x & Hx & Ex). destruct x; cbn in Ex; try discriminate. injection Ex as ->.
      apply (Hn l1 n l2 El m). apply in_app_iff. auto. }
    destruct (filter_map is_nonce l) as [|n [|m q]]; [apply Permutation_nil in Q; rewrite Q; reflexivity
      |apply Permutation_length_1_inv in Q; rewrite Q; reflexivity|cbn in Hs; lia].
  - intros k. apply latest_perm; [exact Ht|apply filter_map_perm; exact Hp].
  - intros. eapply Permutation_in; eassumption.
  - intros. eapply Permutation_in; [symmetry; exact Hp|assumption].
  - intros. eapply Permutation_in; eassumption.
  - intros. eapply Permutation_in; [symmetry; exact Hp|assumption].
Qed.

(** ** The same calls again *)
Lemma rmap_ok_inv {E A B} (f : A -> B) (r : result E A) y : rmap f r = Ok y -> exists x, r = Ok x /\ y = f x.
Proof. apply rmap_ok. Qed.

(** Tags are not lost *)
Lemma tags_kept X issuer b l c b' ty : c_built X issuer b l -> c_call X b c = Ok b' ->
  mget ty (ob_tags (cb_builder b)) <> None -> mget ty (ob_tags (cb_builder b')) <> None.
Proof.
  intros B E H. pose proof (c_built_repr _ _ _ _ B) as R.
  destruct (c_step X issuer b l c b' R E) as (new & _ & _ & R').
  rewrite (proj2 (rp_tags _ _ _ (rc_op _ _ _ _ R'))). rewrite (proj2 (rp_tags _ _ _ (rc_op _ _ _ _ R))) in H.
  intros G. apply latest_none in G. apply H. apply latest_none. intros Hi. apply G. unfold tags. rewrite filter_map_app, map_app. apply in_app_iff. left. exact Hi.
Qed.
Lemma tag_put X b name tag b' ty : c_call X b (CAssetTag name tag) = Ok b' -> assigns_type X name = Some ty -> mget ty (ob_tags (cb_builder b')) <> None.
Proof.
  cbn. intros E T. apply rmap_ok in E as (ob & E & ->). unfold add_asset_tag, named in E. rewrite T in E. cbn in E. unfold add_asset_tag_raw in E.
  destruct (mhas ty (ob_fungible (cb_builder b))); [discriminate|]. unfold cinsert in E. destruct (_ <? _); [|discriminate].
  cbn in E. injection E as <-. cbn. rewrite mget_insert_eq. discriminate.
Qed.

Lemma again_same_result X issuer : forall cs cs', Forall2 called_again cs cs' -> forall b l, c_built X issuer b l ->
  (forall before name s v bl tag after, cs = before ++ CFungibleDet name s v bl tag :: after ->
     (exists ty, assigns_type X name = Some ty /\ mget ty (ob_tags (cb_builder b)) <> None) \/ assigns_type X name = None \/
     exists name' tag', In (CAssetTag name' tag') before /\ assigns_type X name' = assigns_type X name) ->
  c_run X b cs = c_run X b cs'.
Proof.
  induction 1 as [|c c' cs cs' Hc H IH]; intros b l B Ht; [reflexivity|]. cbn [c_run].
  assert (E : c_call X b c' = c_call X b c).
  { destruct Hc as [c D|name s v bl tag tag']; [reflexivity|].
    assert (I : init_asset_tag X (cb_builder b) name tag' = init_asset_tag X (cb_builder b) name tag).
    { unfold init_asset_tag, named. destruct (Ht [] name s v bl tag cs eq_refl) as [(ty & T & G)|[T|(n' & t' & [] & _)]].
      - rewrite T. cbn. destruct (mget ty (ob_tags (cb_builder b))); [reflexivity|contradiction].
      - rewrite T. reflexivity. }
    cbn [c_call]. rewrite I. reflexivity. }
  rewrite E. destruct (c_call X b c) as [b1| |] eqn:Ec; cbn [rbind]; [|reflexivity|reflexivity].
  destruct (c_step X issuer b l c b1 (c_built_repr _ _ _ _ B) Ec) as (new & Hn & _ & _).
  apply (IH b1 (l ++ new)); [exact (c_built_call X issuer b l c b1 new B Ec Hn)|].
  intros before name s v bl tag after Eq. destruct (Ht (c :: before) name s v bl tag after ltac:(rewrite Eq; reflexivity)) as [(ty & T & G)|[T|(n' & t' & [->|Hi] & Q)]].
  - left. exists ty. split; [exact T|]. exact (tags_kept X issuer b l c b1 ty B Ec G).
  - right. left. exact T.
  - destruct (assigns_type X name) as [ty|] eqn:T; [|right; left; reflexivity]. left. exists ty. split; [reflexivity|].
    eapply tag_put; [exact Ec|exact Q].
  - right. right. exists n', t'. auto.
Qed.
