(** * Repeating a call on the stash *)
From Verif Require Import Base StM Core HashExists ContainerModel ContainerSpec ContainerProofs.
From Verif Require Import MergeSpec MergeProofs StashModel StashSpec StashProofs.
Local Open Scope N_scope.

(** ** Merging what is already there changes nothing *)

Section Absorb.
Context (H : Hashes) (HC : collision_free H).

Lemma op_binds a b : binds (h_op H) a b.
Proof. apply HC. Qed.

Lemma merge_op_shape a b r : op_wf a -> merge_op H a b = Ok r ->
  op_id H a = op_id H b /\ r = set_assigns a (merge_m (op_assigns a) (op_assigns b)) /\
  same_but_assigns a b /\ aligned H (op_assigns a) (op_assigns b) /\ op_id H r = op_id H a /\ op_wf r.
Proof.
  intros Wa E. assert (Ei : op_id H a = op_id H b).
  { unfold merge_op in E. destruct (N.eqb_spec (op_id H a) (op_id H b)); [assumption|discriminate]. }
  destruct (merge_op_join H a b (op_binds _ _) Ei Wa) as (r' & E' & J).
  assert (r' = r) by congruence. subst r'.
  rewrite merge_op_ok in E by (auto using op_binds). apply Ok_inj in E.
  destruct (op_id_same H a b (op_binds _ _) Ei) as [S A].
  split; [exact Ei|]. split; [symmetry; exact E|]. split; [exact S|]. split; [exact A|].
  split; [apply (oj_id _ _ _ _ J)|apply (oj_sorted _ _ _ _ J)].
Qed.

Lemma aligned_sym a b : aligned H a b -> aligned H b a.
Proof. intros F. apply conceal_aligned. symmetry. apply aligned_conceal, F. Qed.
Lemma aligned_trans a b c : aligned H a b -> aligned H b c -> aligned H a c.
Proof. intros F G. apply conceal_aligned. etransitivity; apply aligned_conceal; eassumption. Qed.

Lemma merge_op_again a b r : op_wf a -> merge_op H a b = Ok r -> merge_op H r b = Ok r.
Proof.
  intros Wa E. destruct (merge_op_shape _ _ _ Wa E) as (Ei & Er & S & A & Eid & Wr).
  rewrite merge_op_ok; [|apply op_binds|congruence|exact Wr]. f_equal.
  assert (Ea : merge_m (op_assigns r) (op_assigns b) = op_assigns r).
  { rewrite Er. cbn [op_assigns set_assigns].
    rewrite <- (merge_m_assoc H) by (auto using aligned_refl). rewrite merge_m_idem. reflexivity. }
  rewrite Ea. apply op_eta.
Qed.

Lemma merge_op_still a b c r : op_wf a -> merge_op H a b = Ok a -> merge_op H a c = Ok r -> merge_op H r b = Ok r.
Proof.
  intros Wa E1 E2. destruct (merge_op_shape _ _ _ Wa E1) as (Ei & Er & S & A & _ & _).
  destruct (merge_op_shape _ _ _ Wa E2) as (Ei2 & Er2 & S2 & A2 & Eid2 & Wr2).
  apply (f_equal op_assigns) in Er. cbn [op_assigns set_assigns] in Er.
  rewrite merge_op_ok; [|apply op_binds|congruence|exact Wr2]. f_equal.
  assert (Ea : merge_m (op_assigns r) (op_assigns b) = op_assigns r).
  { rewrite Er2. cbn [op_assigns set_assigns].
    rewrite (merge_m_comm H (op_assigns a) (op_assigns c)) by assumption.
    rewrite <- (merge_m_assoc H) by (auto using aligned_sym). rewrite <- Er. reflexivity. }
  rewrite Ea. apply op_eta.
Qed.

(** *** Bundles *)

Lemma merge_fold_get (known : omap N Operation) : forall (acc r : omap N Operation),
  msorted known -> msorted acc ->
  rfold (fun known p =>
           match mget (fst p) known with
           | Some t => let! t' := merge_op H t (snd p) in
                       Ok (minsert (fst p) t' (mremove (fst p) known))
           | None => Ok known
           end) acc known = Ok r ->
  msorted r /\
  forall k : N, match mget k acc, mget k known with
            | Some x, Some y => exists z, merge_op H x y = Ok z /\ mget k r = Some z
            | x, _ => mget k r = x
            end.
Proof.
  induction known as [|[i t] known IH]; intros acc r Ms Ma E.
  - apply Ok_inj in E as <-. split; [exact Ma|]. intros k. simpl. destruct (mget k acc); reflexivity.
  - pose proof (msorted_NoDup _ Ms) as Nd. cbn in Nd. inversion_clear Nd.
    assert (Gi : mget i known = None) by (apply mget_None_notin; assumption).
    apply msorted_inv in Ms as [Ms _]. cbn [rfold fst snd] in E. unfold rbind at 1 in E.
    destruct (mget i acc) as [x|] eqn:Ei.
    + destruct (merge_op H x t) as [z|e|] eqn:Ez; try discriminate. cbn [rbind] in E.
      apply IH in E as [Sr Gr]; [|exact Ms|apply minsert_sorted, mremove_sorted, Ma]. split; [exact Sr|].
      intros k. specialize (Gr k). rewrite mget_insert, mget_remove in Gr. cbn [mget].
      destruct (keqb k i) eqn:K.
      * apply keqb_true in K as ->. rewrite Ei. rewrite Gi in Gr. eauto.
      * exact Gr.
    + apply IH in E as [Sr Gr]; [|exact Ms|exact Ma]. split; [exact Sr|]. intros k. specialize (Gr k). cbn [mget].
      destruct (keqb k i) eqn:K; [|exact Gr]. apply keqb_true in K as ->. rewrite Ei in *. exact Gr.
Qed.

Lemma merge_bundle_get a b r : bundle_wf H a -> bundle_wf H b -> merge_bundle H a b = Ok r ->
  b_method r = b_method a /\ b_inputs r = b_inputs a /\ bundle_wf H r /\ len (b_known r) <= len (b_inputs r) /\
  forall k, match mget k (b_known a), mget k (b_known b) with
            | Some x, Some y => exists z, merge_op H x y = Ok z /\ mget k (b_known r) = Some z
            | x, _ => mget k (b_known r) = x
            end.
Proof.
  intros Wa Wb E. pose proof (merge_bundle_spec H a b (fun x y => op_binds x y) Wa Wb) as Sp.
  destruct (len (b_inputs a) <? len (b_known a)); [congruence|]. destruct Sp as (r' & E' & M & I & W & _).
  assert (r' = r) by congruence. subst r'. split; [exact M|]. split; [exact I|]. split; [exact W|].
  unfold merge_bundle in E. destruct (rfold _ _ _) as [known|e|] eqn:Ef; try discriminate. cbn [rbind] in E.
  apply merge_fold_get in Ef as [_ Gr]; [|apply Wb|apply Wa].
  destruct (len (b_inputs a) <? len known) eqn:El; [discriminate|]. apply Ok_inj in E as <-. simpl.
  split; [apply N.ltb_ge, El|exact Gr].
Qed.

(** The stored bundle has all it can have of [b]. *)
Definition bundle_has (st b : Bundle) : Prop :=
  len (b_known st) <= len (b_inputs st) /\
  forall k x y, mget k (b_known st) = Some x -> mget k (b_known b) = Some y -> merge_op H x y = Ok x.

Lemma bundle_has_stay st b : bundle_wf H st -> bundle_wf H b -> bundle_has st b -> merge_bundle H st b = Ok st.
Proof.
  intros Ws Wb [L Hs]. pose proof (merge_bundle_spec H st b (fun x y => op_binds x y) Ws Wb) as Sp.
  destruct (N.ltb_spec (len (b_inputs st)) (len (b_known st))); [lia|]. destruct Sp as (r & E & _).
  rewrite E. f_equal. destruct (merge_bundle_get _ _ _ Ws Wb E) as (M & I & Wr & _ & Gr).
  assert (Ek : b_known r = b_known st).
  { apply msorted_ext; [apply Wr|apply Ws|]. intros k. specialize (Gr k).
    destruct (mget k (b_known st)) as [x|] eqn:Ex; [|destruct (mget k (b_known b)); exact Gr].
    destruct (mget k (b_known b)) as [y|] eqn:Ey; [|exact Gr]. destruct Gr as (z & Ez & ->).
    rewrite (Hs k x y Ex Ey) in Ez. apply Ok_inj in Ez. congruence. }
  destruct r, st; simpl in *; congruence.
Qed.

Lemma bundle_has_self b : bundle_ok H b -> bundle_has b b.
Proof.
  intros [W L]. split; [exact L|]. intros k x y Ex Ey. assert (x = y) by congruence. subst y.
  apply merge_op_idem. apply W in Ex. exact Ex.
Qed.

Lemma bundle_has_merged a b r : bundle_wf H a -> bundle_wf H b -> merge_bundle H a b = Ok r -> bundle_has r b.
Proof.
  intros Wa Wb E. destruct (merge_bundle_get _ _ _ Wa Wb E) as (M & I & Wr & L & Gr). split; [exact L|].
  intros k z y Ez Ey. specialize (Gr k). rewrite Ey in Gr.
  destruct (mget k (b_known a)) as [x|] eqn:Ex; [|congruence]. destruct Gr as (z' & Em & Ez').
  assert (z' = z) by congruence. subst z'. eapply merge_op_again; [|exact Em]. apply Wa in Ex. exact Ex.
Qed.

Lemma bundle_has_still a b c r : bundle_wf H a -> bundle_wf H b -> bundle_wf H c ->
  bundle_has a b -> merge_bundle H a c = Ok r -> bundle_has r b.
Proof.
  intros Wa Wb Wc [L Hs] E. destruct (merge_bundle_get _ _ _ Wa Wc E) as (M & I & Wr & Lr & Gr). split; [exact Lr|].
  intros k z y Ez Ey. specialize (Gr k). destruct (mget k (b_known a)) as [x|] eqn:Ex.
  - destruct (mget k (b_known c)) as [w|].
    + destruct Gr as (z' & Em & Ez'). assert (z' = z) by congruence. subst z'.
      eapply merge_op_still; [|eapply Hs; eassumption|exact Em]. apply Wa in Ex. exact Ex.
    + assert (z = x) by congruence. subst z. eapply Hs; eassumption.
  - destruct (mget k (b_known c)); congruence.
Qed.

(** *** Witnesses *)

Lemma merge_xpub_id a b r : merge_xpub a b = Ok r -> witness_id r = witness_id a /\ witness_id b = witness_id a.
Proof.
  unfold merge_xpub. destruct a as [la pa], b as [lb pb]. cbn [xw_layer xw_pub].
  destruct la, lb; try discriminate.
  all: destruct pa as [ta|ta], pb as [tb|tb]; unfold merge_pub; cbn [rmap rbind];
    repeat match goal with |- context [?x =? ?y] => destruct (N.eqb_spec x y) end; cbn; intros [= <-];
    unfold witness_id; cbn; split; congruence.
Qed.

Lemma merge_xpub_again a b r : merge_xpub a b = Ok r -> merge_xpub r b = Ok r.
Proof.
  unfold merge_xpub. destruct a as [la pa], b as [lb pb]. cbn [xw_layer xw_pub].
  destruct la, lb; try discriminate.
  all: destruct pa as [ta|ta], pb as [tb|tb]; unfold merge_pub; cbn [rmap rbind];
    repeat match goal with |- context [?x =? ?y] => destruct (N.eqb_spec x y) end; cbn; intros [= <-]; cbn;
    rewrite ?N.eqb_refl; cbn; try reflexivity;
    repeat match goal with |- context [?x =? ?y] => destruct (N.eqb_spec x y) end; cbn; congruence.
Qed.

Lemma merge_xpub_self a : merge_xpub a a = Ok a.
Proof. unfold merge_xpub. destruct a as [[] [t|t]]; cbn; rewrite N.eqb_refl; reflexivity. Qed.

Lemma known_union_stay k m : (forall p, mget p m <> None -> mget p k <> None) -> known_union k m = k.
Proof.
  intros Hs. unfold known_union.
  assert (G : forall l, (forall p, In p l -> mhas (fst p) k = true) ->
     fold_left (fun acc p => if mhas (fst p) acc then acc else minsert (fst p) (snd p) acc) l k = k).
  { induction l as [|p l IH]; intros Hl; cbn [fold_left]; [reflexivity|].
    rewrite (Hl p) by (left; reflexivity). apply IH. intros q Hq. apply Hl. right; exact Hq. }
  apply G. intros [q v] Hin. apply mhas_true.
  assert (Hm : mget q m <> None).
  { intros En. apply mget_None_notin in En. apply En. unfold mkeys. apply in_map_iff. exists (q, v). auto. }
  apply Hs in Hm. cbn [fst]. destruct (mget q k); [eauto|congruence].
Qed.

Lemma merge_anchor_again a b r : merge_anchor a b = Ok r -> merge_anchor r b = Ok r /\ merge_anchor r a = Ok r.
Proof.
  intros E. apply merge_anchor_ok in E as [[Cd Cr] (Jd & Jr & Jk)].
  unfold merge_anchor. rewrite Jd, Jr, Cd, Cr, !N.eqb_refl. cbn [negb].
  rewrite !known_union_stay.
  - split; f_equal; destruct r; simpl in *; congruence.
  - intros p Hp. rewrite Jk. destruct (mget p (an_known a)); [discriminate|congruence].
  - intros p Hp. rewrite Jk. destruct (mget p (an_known a)); [discriminate|congruence].
Qed.

Lemma merge_anchors_again a b r : merge_anchors a b = Ok r -> merge_anchors r b = Ok r.
Proof.
  destruct a as [t|o|t o], b as [t'|o'|t' o']; cbn [merge_anchors]; intros E.
  all: repeat match type of E with
    | rmap _ (merge_anchor ?x ?y) = _ =>
        let M := fresh "M" in
        destruct (merge_anchor x y) as [?|?|] eqn:M; cbn [rmap rbind] in E; try discriminate;
        apply merge_anchor_again in M as [? ?]
    | rbind (merge_anchor ?x ?y) _ = _ =>
        let M := fresh "M" in
        destruct (merge_anchor x y) as [?|?|] eqn:M; cbn [rmap rbind] in E; try discriminate;
        apply merge_anchor_again in M as [? ?]
    end.
  all: apply Ok_inj in E as <-; cbn [merge_anchors].
  all: repeat match goal with
    | M : merge_anchor ?x ?y = Ok _ |- context [merge_anchor ?x ?y] => rewrite M; cbn [rmap rbind]
    end.
  all: rewrite ?merge_anchor_idem; cbn [rmap rbind].
  all: repeat match goal with
    | M : merge_anchor ?x ?y = Ok _ |- context [merge_anchor ?x ?y] => rewrite M; cbn [rmap rbind]
    end.
  all: rewrite ?merge_anchor_idem; cbn [rmap rbind].
  all: reflexivity.
Qed.

Lemma merge_anchors_self a : merge_anchors a a = Ok a.
Proof. destruct a; cbn [merge_anchors]; rewrite ?merge_anchor_idem; cbn [rmap rbind]; rewrite ?merge_anchor_idem; reflexivity. Qed.


(** ** What the stash has of a consignment *)

Definition careful : Guard := {| g_op := op_wf; g_ext := op_wf; g_bundle := bundle_ok H |}.

Record good (s : MemStash) : Prop := {
  go_filed : filed H s;
  go_gen : forall id g, mget id (st_geneses s) = Some g -> op_wf g;
  go_ext : forall id e, mget id (st_extensions s) = Some e -> op_wf e;
  go_bundle : forall id b, mget id (st_bundles s) = Some b -> bundle_wf H b
}.

Lemma good_empty : good st_empty.
Proof. constructor; [apply filed_empty|discriminate|discriminate|discriminate]. Qed.

Lemma good_kept s s' : upd careful H s s' -> good s -> good s'.
Proof.
  intros U [F G1 G2 G3]. constructor; [eapply filed_kept; eassumption| | |].
  - destruct U; simpl; try exact G1; intros k x E; ins; eauto.
    eapply merge_op_shape in H2; [apply H2|eauto].
  - destruct U; simpl; try exact G2; intros k x E; ins; eauto.
    eapply merge_op_shape in H2; [apply H2|eauto].
  - destruct U; simpl; try exact G3; intros k x E; ins; eauto.
    + apply H0.
    + eapply merge_bundle_get in H2; [apply H2|eauto|apply H0].
Qed.

Lemma good_after K l : (forall c, In c l -> call_ok H c) -> good (stash_after H K st_empty l).
Proof.
  intros Hc. apply (calls_keep careful); [apply good_kept| | |apply good_empty].
  - intros a id t [F G1 G2 G3]. constructor; try assumption. destruct F; constructor; assumption.
  - intros c Hin. apply Hc in Hin. destruct c; simpl in *; auto.
    split; [apply Hin|]. split; [apply Hin|]. intros wb p Hw Hp. eapply co_bundles; eauto.
Qed.

Definition has_genesis (g : Operation) (s : MemStash) : Prop :=
  exists st, mget (contract_id H g) (st_geneses s) = Some st /\ merge_op H st g = Ok st.
Definition has_extension (e : Operation) (s : MemStash) : Prop :=
  exists st, mget (op_id H e) (st_extensions s) = Some st /\ merge_op H st e = Ok st.
Definition has_bundle (b : Bundle) (s : MemStash) : Prop :=
  exists st, mget (bundle_id H b) (st_bundles s) = Some st /\ bundle_has st b.
Definition has_witness (w : SealWitness) (s : MemStash) : Prop :=
  exists st, mget (sw_id w) (st_witnesses s) = Some st /\
    merge_xpub (sw_public st) (sw_public w) = Ok (sw_public st) /\
    merge_anchors (sw_anchors st) (sw_anchors w) = Ok (sw_anchors st).

Lemma merge_bundle_id a b r : merge_bundle H a b = Ok r -> bundle_id H r = bundle_id H a.
Proof.
  unfold merge_bundle. destruct (rfold _ _ _); try discriminate. cbn [rbind].
  destruct (_ <? _); [discriminate|]. intros E. apply Ok_inj in E as <-. reflexivity.
Qed.

Lemma genesis_kept g s s' : upd careful H s s' -> good s -> has_genesis g s -> has_genesis g s'.
Proof.
  intros U Go (st & E & M). unfold has_genesis. destruct U; simpl; eauto.
  - rewrite mget_insert. destruct (keqb _ _) eqn:K; [|eauto]. apply keqb_true in K. congruence.
  - assert (Wo : op_wf old) by (eapply go_gen; eassumption).
    destruct (merge_op_shape _ _ _ Wo H2) as (Ei & _ & _ & _ & Eid & _).
    rewrite mget_insert. destruct (keqb _ _) eqn:K; [|eauto]. apply keqb_true in K.
    assert (E3 : contract_id H g = contract_id H g0) by (unfold contract_id in *; congruence).
    rewrite E3, H1 in E. apply Some_inj in E as <-. exists g'. split; [reflexivity|]. eapply merge_op_still; eassumption.
Qed.

Lemma extension_kept g s s' : upd careful H s s' -> good s -> has_extension g s -> has_extension g s'.
Proof.
  intros U Go (st & E & M). unfold has_extension. destruct U; simpl; eauto.
  - rewrite mget_insert. destruct (keqb _ _) eqn:K; [|eauto]. apply keqb_true in K. congruence.
  - assert (Wo : op_wf old) by (eapply go_ext; eassumption).
    destruct (merge_op_shape _ _ _ Wo H2) as (Ei & _ & _ & _ & Eid & _).
    rewrite mget_insert. destruct (keqb _ _) eqn:K; [|eauto]. apply keqb_true in K.
    assert (E3 : op_id H g = op_id H e) by congruence.
    rewrite E3, H1 in E. apply Some_inj in E as <-. exists e'. split; [reflexivity|]. eapply merge_op_still; eassumption.
Qed.

Lemma bundle_kept b s s' : bundle_wf H b -> upd careful H s s' -> good s -> has_bundle b s -> has_bundle b s'.
Proof.
  intros Wb U Go (st & E & M). unfold has_bundle. destruct U; simpl; eauto.
  - rewrite mget_insert. destruct (keqb _ _) eqn:K; [|eauto]. apply keqb_true in K. congruence.
  - assert (Wo : bundle_wf H old) by (eapply go_bundle; eassumption).
    pose proof (merge_bundle_id _ _ _ H2) as Ei.
    assert (Eo : bundle_id H old = bundle_id H b0) by (eapply fi_bundle; [apply Go|eassumption]).
    rewrite mget_insert. destruct (keqb _ _) eqn:K; [|eauto]. apply keqb_true in K.
    assert (E3 : bundle_id H b = bundle_id H b0) by congruence.
    rewrite E3, H1 in E. apply Some_inj in E as <-. exists b'. split; [reflexivity|].
    eapply bundle_has_still; [exact Wo|exact Wb| |exact M|exact H2]. apply H0.
Qed.

(** A call succeeded, and what is claimed holds after it *)
Definition leaves {A} (m : STM A) (P : MemStash -> Prop) : Prop :=
  forall s s' a, good s -> m s = (s', Ok a) -> P s'.

(** Run again on such a stash, it changes nothing, or some collection is full *)
Definition idle {A} (m : STM A) (s : MemStash) (a : A) : Prop := m s = (s, Ok a) \/ m s = (s, Err StashFull).
Definition idle_any {A} (m : STM A) (s : MemStash) : Prop := exists a, idle m s a.

Lemma consume_genesis_leaves g : op_wf g -> leaves (consume_genesis H g) (has_genesis g).
Proof.
  intros Wg s s' a Go E. unfold consume_genesis, bind, get in E.
  destruct (mget (contract_id H g) (st_geneses s)) as [old|] eqn:Eo.
  - unfold lift in E. destruct (merge_op H old g) as [g'|e|] eqn:Em; cbn [rmap_err] in E; try discriminate.
    unfold replace_genesis, bind, get, grown, lift, put, ret in E.
    destruct (cinsert _ _ _ _) as [m|] eqn:Ec; cbn [ok_or] in E; [|discriminate].
    apply cinsert_inv in Ec as [-> _]. injection E as <- _.
    assert (Wo : op_wf old) by (eapply go_gen; eassumption).
    destruct (merge_op_shape _ _ _ Wo Em) as (Ei & _ & _ & _ & Eid & _).
    exists g'. simpl. unfold contract_id in *. rewrite Eid, Ei, mget_insert_eq. split; [reflexivity|].
    eapply merge_op_again; eassumption.
  - unfold ret, replace_genesis, bind, get, grown, lift, put, ret in E.
    destruct (cinsert _ _ _ _) as [m|] eqn:Ec; cbn [ok_or] in E; [|discriminate].
    apply cinsert_inv in Ec as [-> _]. injection E as <- _.
    exists g. simpl. rewrite mget_insert_eq. split; [reflexivity|]. apply merge_op_idem, Wg.
Qed.

Lemma consume_extension_leaves g : op_wf g -> leaves (consume_extension H g) (has_extension g).
Proof.
  intros Wg s s' a Go E. unfold consume_extension, bind, get in E.
  destruct (mget (op_id H g) (st_extensions s)) as [old|] eqn:Eo.
  - unfold lift in E. destruct (merge_op H old g) as [g'|e|] eqn:Em; cbn [rmap_err] in E; try discriminate.
    unfold replace_extension, bind, get, grown, lift, put, ret in E.
    destruct (cinsert _ _ _ _) as [m|] eqn:Ec; cbn [ok_or] in E; [|discriminate].
    apply cinsert_inv in Ec as [-> _]. injection E as <- _.
    assert (Wo : op_wf old) by (eapply go_ext; eassumption).
    destruct (merge_op_shape _ _ _ Wo Em) as (Ei & _ & _ & _ & Eid & _).
    exists g'. simpl. rewrite Eid, Ei, mget_insert_eq. split; [reflexivity|].
    eapply merge_op_again; eassumption.
  - unfold ret, replace_extension, bind, get, grown, lift, put, ret in E.
    destruct (cinsert _ _ _ _) as [m|] eqn:Ec; cbn [ok_or] in E; [|discriminate].
    apply cinsert_inv in Ec as [-> _]. injection E as <- _.
    exists g. simpl. rewrite mget_insert_eq. split; [reflexivity|]. apply merge_op_idem, Wg.
Qed.

Lemma consume_bundle_leaves b : bundle_ok H b -> leaves (consume_bundle H b) (has_bundle b).
Proof.
  intros Wb s s' a Go E. unfold consume_bundle, bind, get in E.
  destruct (mget (bundle_id H b) (st_bundles s)) as [old|] eqn:Eo.
  - unfold lift in E. destruct (merge_bundle H old b) as [g'|e|] eqn:Em; cbn [rmap_err] in E; try discriminate.
    unfold replace_bundle, bind, get, grown, lift, put, ret in E.
    destruct (cinsert _ _ _ _) as [m|] eqn:Ec; cbn [ok_or] in E; [|discriminate].
    apply cinsert_inv in Ec as [-> _]. injection E as <- _.
    assert (Wo : bundle_wf H old) by (eapply go_bundle; eassumption).
    pose proof (merge_bundle_id _ _ _ Em) as Ei.
    assert (Eb : bundle_id H old = bundle_id H b) by (eapply fi_bundle; [apply Go|eassumption]).
    exists g'. simpl. rewrite Ei, Eb, mget_insert_eq. split; [reflexivity|].
    eapply bundle_has_merged; [exact Wo|apply Wb|exact Em].
  - unfold ret, replace_bundle, bind, get, grown, lift, put, ret in E.
    destruct (cinsert _ _ _ _) as [m|] eqn:Ec; cbn [ok_or] in E; [|discriminate].
    apply cinsert_inv in Ec as [-> _]. injection E as <- _.
    exists b. simpl. rewrite mget_insert_eq. split; [reflexivity|]. apply bundle_has_self, Wb.
Qed.

Lemma witness_new_leaves w : leaves (consume_witness w) (has_witness w).
Proof.
  intros s s' x Go E. unfold consume_witness, bind, get in E.
  destruct (mget (sw_id w) (st_witnesses s)) as [old|] eqn:Eo.
  - unfold lift in E. destruct (merge_xpub _ _) as [p|e|] eqn:Ep; cbn [rmap_err] in E; try discriminate.
    destruct (merge_anchors _ _) as [a|e|] eqn:Ea; cbn [rmap_err] in E; try discriminate.
    unfold ret, replace_witness, bind, get, grown, lift, put, ret in E.
    destruct (cinsert _ _ _ _) as [m|] eqn:Ec; cbn [ok_or] in E; [|discriminate].
    apply cinsert_inv in Ec as [-> _]. injection E as <- _.
    eexists. simpl. split; [|split].
    + apply merge_xpub_id in Ep as [P1 P2]. unfold sw_id. cbn [sw_public]. rewrite P1, <- P2. apply mget_insert_eq.
    + cbn [sw_public]. eapply merge_xpub_again, Ep.
    + cbn [sw_anchors]. eapply merge_anchors_again, Ea.
  - unfold ret, replace_witness, bind, get, grown, lift, put, ret in E.
    destruct (cinsert _ _ _ _) as [m|] eqn:Ec; cbn [ok_or] in E; [|discriminate].
    apply cinsert_inv in Ec as [-> _]. injection E as <- _.
    exists w. simpl. split; [apply mget_insert_eq|]. split; [apply merge_xpub_self|apply merge_anchors_self].
Qed.

Lemma consume_genesis_idle g s : good s -> stash_sorted s -> has_genesis g s -> idle (consume_genesis H g) s tt.
Proof.
  intros Go So (st & E & M). unfold idle, consume_genesis, bind, get. rewrite E. unfold lift. rewrite M. cbn [rmap_err].
  unfold replace_genesis, bind, get, grown, lift, put, ret, cinsert.
  assert (Ei : contract_id H st = contract_id H g) by (eapply fi_genesis; [apply Go|exact E]). rewrite Ei.
  destruct (_ <? _); cbn [ok_or]; [|right; reflexivity]. left. f_equal.
  rewrite minsert_same by (apply So || exact E). destruct s; reflexivity.
Qed.

Lemma consume_extension_idle g s : good s -> stash_sorted s -> has_extension g s -> idle (consume_extension H g) s tt.
Proof.
  intros Go So (st & E & M). unfold idle, consume_extension, bind, get. rewrite E. unfold lift. rewrite M. cbn [rmap_err].
  unfold replace_extension, bind, get, grown, lift, put, ret, cinsert.
  assert (Ei : op_id H st = op_id H g) by (eapply fi_extension; [apply Go|exact E]). rewrite Ei.
  destruct (_ <? _); cbn [ok_or]; [|right; reflexivity]. left. f_equal.
  rewrite minsert_same by (apply So || exact E). destruct s; reflexivity.
Qed.

Lemma consume_bundle_idle b s : bundle_wf H b -> good s -> stash_sorted s -> has_bundle b s -> idle_any (consume_bundle H b) s.
Proof.
  intros Wb Go So (st & E & M). unfold idle_any, idle, consume_bundle, bind, get. rewrite E. unfold lift.
  rewrite bundle_has_stay by (eauto using go_bundle). cbn [rmap_err].
  unfold replace_bundle, bind, get, grown, lift, put, ret, cinsert.
  assert (Ei : bundle_id H st = bundle_id H b) by (eapply fi_bundle; [apply Go|exact E]). rewrite Ei.
  destruct (_ <? _); cbn [ok_or]; [|exists true; right; reflexivity]. eexists. left. f_equal.
  rewrite minsert_same by (apply So || exact E). destruct s; reflexivity.
Qed.

Lemma consume_witness_idle w s : good s -> stash_sorted s -> has_witness w s -> idle_any (consume_witness w) s.
Proof.
  intros Go So (st & E & Mp & Ma). unfold idle_any, idle, consume_witness, bind, get. rewrite E. unfold lift.
  rewrite Mp, Ma. cbn [rmap_err].
  unfold ret, replace_witness, bind, get, grown, lift, put, ret, cinsert.
  assert (Es : {| sw_public := sw_public st; sw_anchors := sw_anchors st |} = st) by (destruct st; reflexivity). rewrite Es.
  assert (Ei : sw_id st = sw_id w) by (eapply fi_witness; [apply Go|exact E]). rewrite Ei.
  destruct (_ <? _); cbn [ok_or]; [|exists true; right; reflexivity]. eexists. left. f_equal.
  rewrite minsert_same by (apply So || exact E). destruct s; reflexivity.
Qed.

(** *** Loops and sequences *)

Lemma idle_bind {A B} (m : STM A) (k : A -> STM B) s a b : idle m s a -> idle (k a) s b -> idle (bind m k) s b.
Proof. unfold idle, bind. intros [->| ->] I; [exact I|right; reflexivity]. Qed.
Lemma idle_any_bind {A B} (m : STM A) (k : A -> STM B) s b : idle_any m s -> (forall a, idle (k a) s b) -> idle (bind m k) s b.
Proof. intros [a I] J. eapply idle_bind; eauto. Qed.
Lemma idle_mfor {A} (f : A -> STM unit) l s : (forall a, In a l -> idle (f a) s tt) -> idle (mfor f l) s tt.
Proof.
  induction l as [|a l IH]; intros I; [left; reflexivity|]. cbn [mfor]. apply idle_bind with (a := tt); [apply I; left; reflexivity|].
  apply IH. intros b Hb. apply I. right; exact Hb.
Qed.

Lemma good_steps s s' : steps careful H s s' -> good s -> good s'.
Proof. intros S. eapply steps_keep; [apply good_kept|exact S]. Qed.

Lemma kept_steps (Q : MemStash -> Prop) s s' :
  (forall a b, upd careful H a b -> good a -> Q a -> Q b) -> steps careful H s s' -> good s -> Q s -> Q s'.
Proof.
  intros K S Go Qs.
  assert (P : good s' /\ Q s'); [|apply P].
  eapply (steps_keep careful H (fun s => good s /\ Q s)); [|exact S|split; assumption].
  intros a b U [Ga Qa]. split; [eapply good_kept; eassumption|eapply K; eassumption].
Qed.

Lemma mfor_leaves {A} (f : A -> STM unit) (Q : A -> MemStash -> Prop) l :
  (forall a, In a l -> by_steps careful H (f a)) -> (forall a, In a l -> leaves (f a) (Q a)) ->
  (forall a s s', In a l -> upd careful H s s' -> good s -> Q a s -> Q a s') ->
  leaves (mfor f l) (fun s => forall a, In a l -> Q a s).
Proof.
  induction l as [|x l IH]; intros St Lv Kp s s' u Go E a Hin; [destruct Hin|].
  cbn [mfor] in E. unfold bind in E. destruct (f x s) as [s1 [v|e|]] eqn:E1; try discriminate.
  assert (S1 : steps careful H s s1) by (eapply St; [left; reflexivity|exact E1]).
  assert (G1 : good s1) by (eapply good_steps; eassumption).
  destruct Hin as [<-|Hin].
  - eapply kept_steps; [| |exact G1|eapply Lv; [left; reflexivity|exact Go|exact E1]].
    + intros a b. apply Kp. left; reflexivity.
    + eapply by_mfor; [|exact E]. intros a Ha. apply St. right; exact Ha.
  - eapply IH; [| | |exact G1|exact E|exact Hin].
    + intros b Hb. apply St. right; exact Hb.
    + intros b Hb. apply Lv. right; exact Hb.
    + intros b t t' Hb. apply Kp. right; exact Hb.
Qed.

(** *** Witness bundles *)

Section Bundles.
Context (K : Merkle) (cid : N).

(** What a bundle contributes to the anchors does not depend on the stash. *)
Fixpoint anchor_vals (l : list (EAnchor * Bundle)) : option (list (CloseMethod * Anchor)) :=
  match l with
  | [] => Some []
  | p :: l' =>
      match mk_with K (ea_mpc (fst p)) cid (bundle_id H (snd p)), anchor_vals l' with
      | Some root, Some r =>
          Some ((dp_method (ea_dbc (fst p)),
                 {| an_root := root; an_known := [(cid, bundle_id H (snd p))]; an_dbc := dp_data (ea_dbc (fst p)) |}) :: r)
      | _, _ => None
      end
  end.

Lemma anchor_bundle_inv p s s' a : anchor_bundle H K cid p s = (s', Ok a) ->
  (exists x, consume_bundle H (snd p) s = (s', Ok x)) /\
  exists root, mk_with K (ea_mpc (fst p)) cid (bundle_id H (snd p)) = Some root /\
    a = (dp_method (ea_dbc (fst p)),
         {| an_root := root; an_known := [(cid, bundle_id H (snd p))]; an_dbc := dp_data (ea_dbc (fst p)) |}).
Proof.
  unfold anchor_bundle, bind at 1. destruct (consume_bundle H (snd p) s) as [s1 [x|e|]]; try discriminate.
  unfold bind, lift, ret. destruct (mk_with _ _ _ _) as [root|]; cbn [ok_or]; [|discriminate].
  intros E. injection E as <- <-. eauto.
Qed.

Lemma anchor_all_vals l : forall s s' r, anchor_all H K cid l s = (s', Ok r) -> anchor_vals l = Some r.
Proof.
  induction l as [|p l IH]; intros s s' r E; cbn [anchor_all] in E.
  - injection E as _ <-. reflexivity.
  - unfold bind in E. destruct (anchor_bundle H K cid p s) as [s1 [a|e|]] eqn:E1; try discriminate.
    destruct (anchor_all H K cid l s1) as [s2 [r2|e|]] eqn:E2; try discriminate. injection E as _ <-.
    apply IH in E2. apply anchor_bundle_inv in E1 as (_ & root & Em & ->). cbn [anchor_vals]. rewrite Em, E2. reflexivity.
Qed.

Lemma anchor_all_leaves l : (forall p, In p l -> bundle_ok H (snd p)) ->
  leaves (anchor_all H K cid l) (fun s => forall p, In p l -> has_bundle (snd p) s).
Proof.
  induction l as [|q l IH]; intros Bk s s' r Go E p Hin; [destruct Hin|].
  cbn [anchor_all] in E. unfold bind in E.
  destruct (anchor_bundle H K cid q s) as [s1 [a|e|]] eqn:E1; try discriminate.
  destruct (anchor_all H K cid l s1) as [s2 [r2|e|]] eqn:E2; try discriminate. injection E as <- _.
  apply anchor_bundle_inv in E1 as [(x & E1) _].
  assert (Oq : bundle_ok H (snd q)) by (apply Bk; left; reflexivity).
  assert (Ol : forall p, In p l -> bundle_ok H (snd p)) by (intros; apply Bk; right; assumption).
  assert (G1 : good s1) by (eapply good_steps; [eapply (by_consume_bundle careful); eassumption|exact Go]).
  destruct Hin as [<-|Hin]; [|eapply IH; eassumption].
  eapply kept_steps; [intros a0 b0; apply bundle_kept, Oq| |exact G1|eapply consume_bundle_leaves; [exact Oq|exact Go|exact E1]].
  eapply by_anchor_all; [|exact E2]. exact Ol.
Qed.

Lemma anchor_all_idle l r s : (forall p, In p l -> bundle_ok H (snd p)) -> good s -> stash_sorted s ->
  (forall p, In p l -> has_bundle (snd p) s) -> anchor_vals l = Some r -> idle (anchor_all H K cid l) s r.
Proof.
  revert r. induction l as [|q l IH]; intros r Bk Go So Hb E.
  - injection E as <-. left. reflexivity.
  - cbn [anchor_vals] in E. destruct (mk_with _ _ _ _) as [root|] eqn:Em; [|discriminate].
    destruct (anchor_vals l) as [r'|] eqn:Er; [|discriminate]. apply Some_inj in E as <-. cbn [anchor_all].
    eapply idle_bind.
    + unfold anchor_bundle. cbv zeta. apply idle_any_bind.
      * apply consume_bundle_idle; [apply Bk; left; reflexivity|exact Go|exact So|apply Hb; left; reflexivity].
      * intros _. rewrite Em. left. reflexivity.
    + eapply idle_bind; [apply IH; [intros; apply Bk; right; assumption|exact Go|exact So|intros; apply Hb; right; assumption|reflexivity]|].
      left. reflexivity.
Qed.

Definition has_wb (wb : WitnessBundle) (s : MemStash) : Prop :=
  exists r a, anchor_vals (anchored_iter (wb_bundles wb)) = Some r /\ (forall s, anchors_of r s = (s, Ok a)) /\
    (forall p, In p (anchored_iter (wb_bundles wb)) -> has_bundle (snd p) s) /\
    has_witness {| sw_public := wb_witness wb; sw_anchors := a |} s.

Lemma anchors_of_pure r s s' a : anchors_of r s = (s', Ok a) -> s' = s /\ forall t, anchors_of r t = (t, Ok a).
Proof.
  unfold anchors_of. destruct (rev r) as [|[[] x] [|[[] y] q]]; unfold ret, panic; intros E; try discriminate; injection E as <- <-; auto.
Qed.

Lemma consume_bundle_witnesses b s s' r : consume_bundle H b s = (s', r) -> st_witnesses s' = st_witnesses s.
Proof.
  unfold consume_bundle, bind, get. destruct (mget _ _) as [old|].
  - unfold lift. destruct (merge_bundle H old b); cbn [rmap_err]; [|intros E; injection E as <- _; reflexivity|intros E; injection E as <- _; reflexivity].
    unfold replace_bundle, bind, get, grown, lift, put, ret. destruct (cinsert _ _ _ _); cbn [ok_or]; intros E; injection E as <- _; reflexivity.
  - unfold ret, replace_bundle, bind, get, grown, lift, put, ret. destruct (cinsert _ _ _ _); cbn [ok_or]; intros E; injection E as <- _; reflexivity.
Qed.

Lemma anchor_all_witnesses l : forall s s' r, anchor_all H K cid l s = (s', r) -> st_witnesses s' = st_witnesses s.
Proof.
  induction l as [|p l IH]; intros s s' r E; cbn [anchor_all] in E; [injection E as <- _; reflexivity|].
  assert (B : forall t t' x, anchor_bundle H K cid p t = (t', x) -> st_witnesses t' = st_witnesses t).
  { intros t t' x. unfold anchor_bundle. cbv zeta. unfold bind at 1. destruct (consume_bundle H (snd p) t) as [t1 [y|e|]] eqn:Eb;
      apply consume_bundle_witnesses in Eb; [|intros F; injection F as <- _; exact Eb|intros F; injection F as <- _; exact Eb].
    unfold bind, lift, ret. destruct (mk_with _ _ _ _); cbn [ok_or]; intros F; injection F as <- _; exact Eb. }
  unfold bind in E. destruct (anchor_bundle H K cid p s) as [s1 [a|e|]] eqn:E1; apply B in E1;
    [|injection E as <- _; exact E1|injection E as <- _; exact E1].
  destruct (anchor_all H K cid l s1) as [s2 [r2|e|]] eqn:E2; apply IH in E2; injection E as <- _; congruence.
Qed.

Lemma consume_witness_others w s s' r : filed H s -> consume_witness w s = (s', r) ->
  forall x, x <> sw_id w -> mget x (st_witnesses s') = mget x (st_witnesses s).
Proof.
  intros Fi. unfold consume_witness, bind, get. destruct (mget (sw_id w) (st_witnesses s)) as [old|] eqn:Eo.
  - unfold lift. destruct (merge_xpub _ _) as [p|e|] eqn:Ep; cbn [rmap_err];
      [|intros E; injection E as <- _; reflexivity|intros E; injection E as <- _; reflexivity].
    destruct (merge_anchors _ _) as [a|e|] eqn:Ea; cbn [rmap_err];
      [|intros E; injection E as <- _; reflexivity|intros E; injection E as <- _; reflexivity].
    unfold ret, replace_witness, bind, get, grown, lift, put, ret.
    destruct (cinsert _ _ _ _) as [m|] eqn:Ec; cbn [ok_or]; intros E; injection E as <- _; [|reflexivity].
    apply cinsert_inv in Ec as [-> _]. intros x Ne. simpl. apply mget_insert_ne.
    apply merge_xpub_id in Ep as [P1 P2]. unfold sw_id in *. cbn [sw_public]. congruence.
  - unfold ret, replace_witness, bind, get, grown, lift, put, ret.
    destruct (cinsert _ _ _ _) as [m|] eqn:Ec; cbn [ok_or]; intros E; injection E as <- _; [|reflexivity].
    apply cinsert_inv in Ec as [-> _]. intros x Ne. simpl. apply mget_insert_ne. congruence.
Qed.

Lemma wb_leaves wb : (forall p, In p (anchored_iter (wb_bundles wb)) -> bundle_ok H (snd p)) ->
  leaves (consume_witness_bundle H K cid wb) (has_wb wb).
Proof.
  intros Bk s s' u Go E. unfold consume_witness_bundle, bind at 1 in E.
  destruct (anchor_all H K cid _ s) as [s1 [r|e|]] eqn:E1; try discriminate.
  assert (S1 : steps careful H s s1) by (eapply by_anchor_all; [|exact E1]; exact Bk).
  assert (G1 : good s1) by (eapply good_steps; eassumption).
  unfold bind at 1 in E. destruct (anchors_of r s1) as [s2 [a|e|]] eqn:E2; try discriminate.
  apply anchors_of_pure in E2 as [-> Ea]. unfold bind in E.
  destruct (consume_witness _ s1) as [s3 [x|e|]] eqn:E3; try discriminate. injection E as <- _.
  exists r, a. split; [eapply anchor_all_vals, E1|]. split; [exact Ea|]. split.
  - intros p Hp. eapply kept_steps; [intros t t'; apply bundle_kept, Bk, Hp| |exact G1|eapply anchor_all_leaves; [exact Bk|exact Go|exact E1|exact Hp]].
    eapply (by_consume_witness careful), E3.
  - eapply witness_new_leaves; [exact G1|exact E3].
Qed.

Lemma wb_others wb s s' r : good s -> (forall p, In p (anchored_iter (wb_bundles wb)) -> bundle_ok H (snd p)) ->
  consume_witness_bundle H K cid wb s = (s', r) ->
  forall x, x <> wb_id wb -> mget x (st_witnesses s') = mget x (st_witnesses s).
Proof.
  intros Go Bk E x Ne. unfold consume_witness_bundle, bind at 1 in E.
  destruct (anchor_all H K cid _ s) as [s1 [l|e|]] eqn:E1; pose proof (anchor_all_witnesses _ _ _ _ E1) as Ew;
    [|injection E as <- _; congruence|injection E as <- _; congruence].
  assert (G1 : good s1) by (eapply good_steps; [eapply by_anchor_all; [|exact E1]; exact Bk|exact Go]).
  unfold bind at 1 in E. assert (P : exists y, anchors_of l s1 = (s1, y)).
  { unfold anchors_of. destruct (rev l) as [|[[] u] [|[[] v] q]]; unfold ret, panic; eexists; reflexivity. }
  destruct P as [[a|e|] P]; rewrite P in E; [|injection E as <- _; congruence|injection E as <- _; congruence].
  unfold bind in E. rewrite <- Ew. destruct (consume_witness _ s1) as [s3 y] eqn:E3.
  assert (s' = s3) as -> by (destruct y; injection E as <- _; reflexivity).
  eapply consume_witness_others; [apply G1|exact E3|exact Ne].
Qed.

Lemma has_wb_kept wb s s' : (forall p, In p (anchored_iter (wb_bundles wb)) -> bundle_ok H (snd p)) ->
  steps careful H s s' -> good s -> mget (wb_id wb) (st_witnesses s') = mget (wb_id wb) (st_witnesses s) ->
  has_wb wb s -> has_wb wb s'.
Proof.
  intros Bk S Go Ew (r & a & A & B & C & st & D1 & D2). exists r, a. split; [exact A|]. split; [exact B|]. split.
  - intros p Hp. eapply kept_steps; [intros t t'; apply bundle_kept, Bk, Hp|exact S|exact Go|apply C, Hp].
  - exists st. split; [|exact D2]. change (sw_id _) with (wb_id wb). rewrite Ew. exact D1.
Qed.

Lemma wbs_leaves l : NoDup (map wb_id l) ->
  (forall wb p, In wb l -> In p (anchored_iter (wb_bundles wb)) -> bundle_ok H (snd p)) ->
  leaves (mfor (consume_witness_bundle H K cid) l) (fun s => forall wb, In wb l -> has_wb wb s).
Proof.
  intros Nd Bk s s' u Go E.
  assert (G : forall l s, NoDup (map wb_id l) ->
    (forall wb p, In wb l -> In p (anchored_iter (wb_bundles wb)) -> bundle_ok H (snd p)) -> good s ->
    forall s' u, mfor (consume_witness_bundle H K cid) l s = (s', Ok u) ->
    (forall x, ~ In x (map wb_id l) -> mget x (st_witnesses s') = mget x (st_witnesses s)) /\
    (forall wb, In wb l -> has_wb wb s')); [|eapply G; eassumption].
  clear s s' u Go E l Nd Bk. induction l as [|wb l IH]; intros s Nd Bk Go s' u E.
  - injection E as <- _. split; [reflexivity|]. intros wb [].
  - cbn [mfor] in E. unfold bind in E. destruct (consume_witness_bundle H K cid wb s) as [s1 [v|e|]] eqn:E1; try discriminate.
    cbn [map] in Nd. apply NoDup_cons_iff in Nd as [Ni Nd].
    assert (Bkw : forall p, In p (anchored_iter (wb_bundles wb)) -> bundle_ok H (snd p)) by (intros; eapply Bk; [left; reflexivity|assumption]).
    assert (Bkl : forall wb p, In wb l -> In p (anchored_iter (wb_bundles wb)) -> bundle_ok H (snd p)) by (intros; eapply Bk; [right; eassumption|assumption]).
    assert (S1 : steps careful H s s1) by (eapply by_consume_witness_bundle; [|exact E1]; exact Bkw).
    assert (G1 : good s1) by (eapply good_steps; eassumption).
    destruct (IH s1 Nd Bkl G1 s' u E) as [IH1 IH2]. split.
    + intros x Hx. cbn [map] in Hx. rewrite IH1 by (intros Hi; apply Hx; right; exact Hi).
      eapply wb_others; [exact Go|exact Bkw|exact E1|]. intros ->. apply Hx. left; reflexivity.
    + intros w [<-|Hw]; [|apply IH2, Hw]. eapply has_wb_kept; [exact Bkw| |exact G1|apply IH1, Ni|eapply wb_leaves; [exact Bkw|exact Go|exact E1]].
      eapply by_mfor; [|exact E]. intros w Hw. apply by_consume_witness_bundle. intros p Hp. eapply Bkl; eassumption.
Qed.

Lemma wb_idle wb s : (forall p, In p (anchored_iter (wb_bundles wb)) -> bundle_ok H (snd p)) ->
  good s -> stash_sorted s -> has_wb wb s -> idle (consume_witness_bundle H K cid wb) s tt.
Proof.
  intros Bk Go So (r & a & A & B & C & D). unfold consume_witness_bundle. eapply idle_bind; [apply anchor_all_idle; eassumption|].
  eapply idle_bind; [left; apply B|]. apply idle_any_bind; [apply consume_witness_idle; assumption|]. left. reflexivity.
Qed.

End Bundles.

End Absorb.

(** ** The kit again *)

(** The only failure of importing a kit is a full collection. *)
Definition only_full {A} (m : STM A) : Prop := forall s s' e, m s = (s', Err e) -> e = StashFull.

Lemma full_ret {A} (a : A) : only_full (ret a).
Proof. intros s s' e E. discriminate. Qed.
Lemma full_bind {A B} (m : STM A) (k : A -> STM B) : only_full m -> (forall a, only_full (k a)) -> only_full (bind m k).
Proof.
  intros F G s s' e. unfold bind. destruct (m s) as [s1 [a|x|]] eqn:E; [apply G| |discriminate].
  intros I. injection I as _ <-. eapply F, E.
Qed.
Lemma full_get : only_full (get : STM MemStash).
Proof. intros s s' e E. discriminate. Qed.
Lemma full_put s0 : only_full (put s0 : STM unit).
Proof. intros s s' e E. discriminate. Qed.
Lemma full_panic {A} : only_full (panic : STM A).
Proof. intros s s' e E. discriminate. Qed.
Lemma full_grown {A} (o : option A) : only_full (grown o).
Proof. intros s s' e. unfold grown, lift. destruct o; cbn [ok_or]; intros E; [discriminate|]. injection E as _ <-. reflexivity. Qed.
Lemma full_mfor {A} (f : A -> STM unit) l : (forall a, only_full (f a)) -> only_full (mfor f l).
Proof. intros F. induction l; [apply full_ret|]. cbn [mfor]. apply full_bind; auto. Qed.
Lemma full_attempt {A} (m : STM A) : only_full (attempt m).
Proof. intros s s' e. unfold attempt. destruct (m s) as [s1 [a|x|]]; discriminate. Qed.

Ltac full := repeat first [apply full_bind; [|intros]|apply full_get|apply full_put|apply full_ret|apply full_grown
                          |apply full_panic|apply full_attempt|apply full_mfor; intros
                          |match goal with |- context [match ?x with _ => _ end] => destruct x end
                          |match goal with |- context [if ?x then _ else _] => destruct x end].

Lemma full_replace_schema x : only_full (replace_schema x). Proof. unfold replace_schema. full. Qed.
Lemma full_replace_iface x : only_full (replace_iface x). Proof. unfold replace_iface. full. Qed.
Lemma full_replace_iimpl x : only_full (replace_iimpl x). Proof. unfold replace_iimpl. full. Qed.
Lemma full_replace_lib x : only_full (replace_lib x). Proof. unfold replace_lib. full. Qed.
Lemma full_replace_attachment x y : only_full (replace_attachment x y). Proof. unfold replace_attachment. full. Qed.
Lemma full_add_supplement x : only_full (add_supplement x). Proof. unfold add_supplement. full. Qed.
Lemma full_consume_types x : only_full (consume_types x). Proof. unfold consume_types. full. Qed.

Lemma kit_full k : only_full (consume_kit k).
Proof.
  unfold consume_kit. repeat (apply full_bind; [|intros]).
  - apply full_consume_types.
  - apply full_mfor. intros. apply full_bind; [apply full_replace_lib|intros; apply full_ret].
  - apply full_mfor. intros. apply full_bind; [apply full_replace_schema|intros; apply full_ret].
  - apply full_mfor. intros. apply full_bind; [apply full_replace_iface|intros; apply full_ret].
  - apply full_mfor. intros. apply full_bind; [apply full_replace_iimpl|intros; apply full_ret].
  - apply full_mfor. intros. apply full_add_supplement.
  - apply full_mfor. intros. apply full_attempt.
Qed.

(** The signatures and identities after importing a kit with room for its signatures *)
Lemma kit_sigs (H : Hashes) k s s' : stash_sorted s -> msorted (k_signatures k) ->
  (forall c sigs, In (c, sigs) (k_signatures k) -> msorted sigs) -> sigs_room (k_signatures k) s ->
  consume_kit k s = (s', Ok tt) ->
  (forall c id, signature s' c id =
     match offered (k_signatures k) c id with
     | Some blob => if should_accept (get_trust s id) then Some blob else signature s c id
     | None => signature s c id
     end) /\
  (forall id, mget id (st_identities s') = match mget id (st_identities s) with
              | Some l => Some l
              | None => if existsb (fun p => mhas id (snd p)) (k_signatures k) then Some trust_default else None
              end).
Proof.
  intros So Ml Ms R E. pose proof (kit_split k s) as Sp. rewrite E in Sp. clear E.
  pose proof (kit_first k s) as F. unfold bind in Sp.
  destruct (kit_defs k s) as [s1 [u|e|]] eqn:E1; [|discriminate|discriminate].
  assert (B1 : by_steps anything H (kit_defs k)).
  { unfold kit_defs. apply by_bind; [apply by_consume_types|intros _].
    apply by_bind; [apply by_mfor; intros; apply by_bind; [apply by_replace_lib|intros; apply by_ret]|intros _].
    apply by_bind; [apply by_mfor; intros; apply by_bind; [apply by_replace_schema|intros; apply by_ret]|intros _].
    apply by_mfor; intros; apply by_bind; [apply by_replace_iface|intros; apply by_ret]. }
  assert (S1 : stash_sorted s1) by (eapply steps_keep; [apply (sorted_kept anything H)|eapply B1, E1|exact So]).
  subst s1.
  set (s1 := defined k s) in *.
  assert (D1 : st_sigs s1 = st_sigs s /\ st_identities s1 = st_identities s) by (split; reflexivity).
  pose proof (replace_iimpls_run (k_impls k) s1) as P. destruct (mfor _ (k_impls k) s1) as [s2 [v|e|]] eqn:E2; try discriminate.
  destruct P as (_ & m & -> & _).
  assert (S2 : stash_sorted (with_schemata m s1)).
  { eapply steps_keep; [apply (sorted_kept anything H)| |exact S1]. eapply by_mfor; [|exact E2].
    intros; apply by_bind; [apply by_replace_iimpl|intros; apply by_ret]. }
  pose proof (add_supplements_run (k_suppl k) (with_schemata m s1)) as P.
  destruct (mfor add_supplement (k_suppl k) _) as [s3 [v3|e|]] eqn:E3; try discriminate. destruct P as (m3 & -> & _).
  assert (S3 : stash_sorted (with_suppl m3 (with_schemata m s1))).
  { eapply steps_keep; [apply (sorted_kept anything H)| |exact S2]. eapply by_mfor; [|exact E3]. intros; apply by_add_supplement. }
  destruct (import_all_sigs_run H (k_signatures k) _ S3 Ml Ms R) as (s4 & E4 & A & B & _).
  assert (s4 = s') as -> by (symmetry in Sp; unfold consume_kit in *; congruence).
  split; [exact A|exact B].
Qed.

Lemma kit_again (H : Hashes) k s s1 m : stash_sorted s -> msorted (k_signatures k) ->
  (forall c sigs, In (c, sigs) (k_signatures k) -> msorted sigs) ->
  sigs_room (k_signatures k) s -> sigs_room (k_signatures k) s1 ->
  consume_kit k s = (s1, Ok tt) ->
  let t := with_attachments m s1 in stash_sorted t ->
  exists s2 r, consume_kit k t = (s2, r) /\ (r = Err StashFull \/ r = Ok tt /\ same_view t s2).
Proof.
  intros So Ml Ms R0 R1 E t St.
  destruct (kit_success _ _ _ E) as [I1 Sc]. destruct (kit_sigs H _ _ _ So Ml Ms R0 E) as [A1 B1].
  destruct (consume_kit k t) as [s2 r] eqn:E2. exists s2, r. split; [reflexivity|].
  destruct r as [[]|e|].
  - right. split; [reflexivity|]. destruct (kit_success _ _ _ E2) as [I2 _].
    destruct (kit_sigs H _ _ _ St Ml Ms R1 E2) as [A2 B2].
    assert (Tr : forall id, get_trust t id = get_trust s id).
    { intros id. unfold get_trust. change (st_identities t) with (st_identities s1). rewrite B1.
      destruct (mget id (st_identities s)); [reflexivity|]. destruct (existsb _ _); reflexivity. }
    assert (If : forall id, mget id (st_ifaces s2) = mget id (st_ifaces s1)).
    { intros id. rewrite (ki_iface _ _ _ I2). change (st_ifaces t) with (st_ifaces s1). rewrite (ki_iface _ _ _ I1).
      destruct (mget id (st_ifaces s)); [reflexivity|]. destruct (find _ _); reflexivity. }
    destruct (ki_rest _ _ _ I2) as (P1 & P2 & P3 & P4 & P5 & P6).
    constructor; try (intros; congruence).
    + intros id. rewrite (ki_schema _ _ _ I2). pose proof (ki_schema _ _ _ I1 id) as Q. change (st_schemata t) with (st_schemata s1).
      destruct (mget id (st_schemata s1)) as [si|] eqn:Ei; [reflexivity|]. simpl in Q.
      destruct (mget id (st_schemata s)); [discriminate|]. rewrite <- Q. reflexivity.
    + exact If.
    + intros id name. rewrite (ki_impl _ _ _ I2). change (impl_under t id name) with (impl_under s1 id name).
      rewrite (ki_impl _ _ _ I1).
      assert (Ea : forall im, impl_at s2 id name im = impl_at s1 id name im) by (intros im; unfold impl_at; rewrite If; reflexivity).
      unfold find_last. assert (Ef : forall l, find (impl_at s2 id name) l = find (impl_at s1 id name) l).
      { induction l as [|x l IH]; simpl; [reflexivity|]. rewrite Ea, IH. reflexivity. }
      rewrite Ef. destruct (find _ _); reflexivity.
    + intros c x. rewrite (ki_suppl _ _ _ I2). change (stash_supplements t c) with (stash_supplements s1 c).
      rewrite (ki_suppl _ _ _ I1). tauto.
    + intros id. rewrite (ki_type _ _ _ I2). change (st_types t) with (st_types s1). rewrite (ki_type _ _ _ I1).
      destruct (find_last _ _); reflexivity.
    + intros id. rewrite (ki_lib _ _ _ I2). change (st_libs t) with (st_libs s1). rewrite (ki_lib _ _ _ I1).
      destruct (find_last _ _); reflexivity.
    + intros id. rewrite B2. change (st_identities t) with (st_identities s1). rewrite B1.
      destruct (mget id (st_identities s)); [reflexivity|]. destruct (existsb _ _); reflexivity.
    + intros c id. rewrite A2, Tr. change (signature t c id) with (signature s1 c id). rewrite A1.
      destruct (offered _ c id); [|reflexivity]. destruct (should_accept _); reflexivity.
  - left. f_equal. eapply kit_full, E2.
  - exfalso. assert (Sc' : self_contained k t).
    { intros im Him. destruct (Sc im Him) as [P Q]. split.
      - destruct P as [P|[si P]]; [left; exact P|]. unfold stash_schema in *. pose proof (ki_schema _ _ _ I1 (im_schema im)) as R.
        change (st_schemata t) with (st_schemata s1). right.
        destruct (mget (im_schema im) (st_schemata s)) as [x|]; [|discriminate].
        destruct (mget (im_schema im) (st_schemata s1)) as [y|]; [|discriminate]. exists y. reflexivity.
      - destruct Q as [Q|[i Q]]; [left; exact Q|]. unfold iface_by_id in *. pose proof (ki_iface _ _ _ I1 (im_iface im)) as R.
        change (st_ifaces t) with (st_ifaces s1). right.
        destruct (mget (im_iface im) (st_ifaces s)) as [x|]; [|discriminate]. rewrite R. exists x. reflexivity. }
    apply kit_no_panic in Sc'. rewrite E2 in Sc'. apply Sc'. reflexivity.
Qed.

(** ** The consignment again *)

Lemma overwrite_again l : forall m k,
  mget k (overwrite l (overwrite l m)) = mget k (overwrite l m : omap N N).
Proof. intros m k. rewrite !overwrite_get. destruct (find_last _ l); reflexivity. Qed.

Lemma consignment_again (H : Hashes) K c s s1 : collision_free H -> good H s -> stash_sorted s -> cons_ok H c ->
  sigs_room (c_signatures c) s -> sigs_room (c_signatures c) s1 ->
  consume_consignment H K c s = (s1, Ok tt) ->
  exists s2 r, consume_consignment H K c s1 = (s2, r) /\ (r = Err StashFull \/ r = Ok tt /\ same_view s1 s2).
Proof.
  intros HC Go So Co R0 R1 E.
  assert (Gd : cons_guarded (careful H) c).
  { split; [apply Co|]. split; [apply Co|]. intros wb p Hw Hp. eapply co_bundles; eauto. }
  assert (Srt : forall {A} (m : STM A) t t' r, by_steps (careful H) H m -> m t = (t', r) -> stash_sorted t -> stash_sorted t').
  { intros A m t t' r B Em. eapply steps_keep; [apply sorted_kept|eapply B, Em]. }
  assert (S1 : stash_sorted s1) by (eapply Srt; [apply by_consume_consignment, Gd|exact E|exact So]).
  assert (G1 : good H s1) by (eapply good_steps; [exact HC|eapply by_consume_consignment; [exact Gd|exact E]|exact Go]).
  destruct Co as [C1 C2 C3 C4 C5 C6]. destruct Gd as (D1 & D2 & D3).
  unfold consume_consignment in E. cbv zeta in E.
  unfold bind at 1 in E. destruct (consume_genesis H _ s) as [sa [ua|e|]] eqn:Ea; try discriminate.
  assert (Sta : steps (careful H) H s sa) by (eapply by_consume_genesis; [exact D1|exact Ea]).
  assert (Ga : good H sa) by (eapply good_steps; eassumption).
  unfold bind at 1 in E. destruct (mfor (consume_extension H) _ sa) as [sb [ub|e|]] eqn:Eb; try discriminate.
  assert (Bb : by_steps (careful H) H (mfor (consume_extension H) (c_extensions c))) by (apply by_mfor; intros x Hx; apply by_consume_extension, D2, Hx).
  assert (Stb : steps (careful H) H sa sb) by (eapply Bb, Eb).
  assert (Gb : good H sb) by (eapply good_steps; eassumption).
  unfold bind at 1 in E. destruct (mfor (consume_witness_bundle H K _) _ sb) as [sc [uc|e|]] eqn:Ec; try discriminate.
  assert (Bc : by_steps (careful H) H (mfor (consume_witness_bundle H K (contract_id H (c_genesis c))) (c_bundles c))).
  { apply by_mfor. intros x Hx. apply by_consume_witness_bundle. intros p Hp. eapply D3; eassumption. }
  assert (Stc : steps (careful H) H sb sc) by (eapply Bc, Ec).
  assert (Gc : good H sc) by (eapply good_steps; eassumption).
  unfold bind at 1 in E. pose proof (replace_attachments_run (c_attachments c) sc) as Ra.
  destruct (mfor _ (c_attachments c) sc) as [sd [ud|e|]] eqn:Ed; try discriminate. subst sd.
  set (sd := attachments_done (c_attachments c) sc) in *.
  assert (Bd : by_steps (careful H) H (mfor (fun p => replace_attachment (fst p) (snd p) ;;! ret tt) (c_attachments c))).
  { apply by_mfor. intros. apply by_bind; [apply by_replace_attachment|intros; apply by_ret]. }
  assert (Std : steps (careful H) H sc sd) by (eapply Bd, Ed).
  assert (Gd' : good H sd) by (eapply good_steps; eassumption).
  assert (Ste : steps (careful H) H sd s1) by (eapply by_consume_kit, E).
  assert (Sd : stash_sorted sd).
  { eapply Srt; [exact Bd|exact Ed|]. eapply Srt; [exact Bc|exact Ec|]. eapply Srt; [exact Bb|exact Eb|].
    eapply Srt; [apply by_consume_genesis, D1|exact Ea|exact So]. }
  assert (Hg : has_genesis H (c_genesis c) s1).
  { eapply kept_steps; [exact HC|intros; eapply genesis_kept; eassumption| |exact Ga|].
    - eapply steps_trans; [exact Stb|]. eapply steps_trans; [exact Stc|]. eapply steps_trans; [exact Std|exact Ste].
    - eapply consume_genesis_leaves; [exact HC|exact C1|exact Go|exact Ea]. }
  assert (He : forall x, In x (c_extensions c) -> has_extension H x s1).
  { intros x Hx. eapply kept_steps; [exact HC|intros; eapply extension_kept; eassumption| |exact Gb|].
    - eapply steps_trans; [exact Stc|]. eapply steps_trans; [exact Std|exact Ste].
    - eapply (mfor_leaves H HC (consume_extension H) (has_extension H)); [| | |exact Ga|exact Eb|exact Hx].
      + intros a Ha. apply by_consume_extension, D2, Ha.
      + intros a Ha. apply consume_extension_leaves; [exact HC|apply C2, Ha].
      + intros a t t' _. apply extension_kept, HC. }
  assert (Hw : forall wb, In wb (c_bundles c) -> has_wb H K (contract_id H (c_genesis c)) wb s1).
  { intros wb Hwb. eapply has_wb_kept with (s := sc); [exact HC|intros; eapply C3; eassumption| |exact Gc| |].
    - eapply steps_trans; [exact Std|exact Ste].
    - destruct (kit_success _ _ _ E) as [I _]. destruct (ki_rest _ _ _ I) as (_ & _ & _ & P & _). rewrite P. reflexivity.
    - eapply wbs_leaves; [exact HC|exact C4|exact C3|exact Gb|exact Ec|exact Hwb]. }
  assert (I1 : idle (consume_genesis H (c_genesis c)) s1 tt) by (apply consume_genesis_idle; assumption).
  assert (I2 : idle (mfor (consume_extension H) (c_extensions c)) s1 tt).
  { apply idle_mfor. intros a Ha. apply consume_extension_idle; auto. }
  assert (I3 : idle (mfor (consume_witness_bundle H K (contract_id H (c_genesis c))) (c_bundles c)) s1 tt).
  { apply idle_mfor. intros a Ha. apply wb_idle; auto. intros p Hp. eapply C3; eassumption. }
  unfold consume_consignment. cbv zeta.
  unfold bind at 1. destruct I1 as [-> | ->]; [|do 2 eexists; split; [reflexivity|left; reflexivity]].
  unfold bind at 1. destruct I2 as [-> | ->]; [|do 2 eexists; split; [reflexivity|left; reflexivity]].
  unfold bind at 1. destruct I3 as [-> | ->]; [|do 2 eexists; split; [reflexivity|left; reflexivity]].
  unfold bind at 1. pose proof (replace_attachments_run (c_attachments c) s1) as Rb.
  destruct (mfor _ (c_attachments c) s1) as [t [ut|e|]] eqn:Et; [| |contradiction].
  2:{ do 2 eexists. split; [reflexivity|]. left. f_equal. eapply (full_mfor _ (c_attachments c)); [|exact Et].
      intros a. apply full_bind; [apply full_replace_attachment|intros; apply full_ret]. }
  subst t. assert (St1 : stash_sorted (attachments_done (c_attachments c) s1)) by (eapply Srt; [exact Bd|exact Et|exact S1]).
  destruct (kit_again H (kit_of c) sd s1 (overwrite (c_attachments c) (st_attachments s1)) Sd C5 C6) as (s2 & r & Ek & Hk).
  - destruct R0 as (Q1 & Q2 & Q3).
    assert (Es : st_sigs sd = st_sigs s /\ st_identities sd = st_identities s).
    { clear - Ea Eb Ec. subst sd.
      assert (F1 : forall x t t' r, consume_genesis H x t = (t', r) -> st_sigs t' = st_sigs t /\ st_identities t' = st_identities t).
      { intros x t t' r. unfold consume_genesis, bind, get. destruct (mget _ _); unfold lift, ret; [destruct (merge_op _ _ _); cbn [rmap_err]|];
          unfold replace_genesis, bind, get, grown, lift, put, ret; try (destruct (cinsert _ _ _ _); cbn [ok_or]); intros X; injection X as <- _; split; reflexivity. }
      assert (F2 : forall x t t' r, consume_extension H x t = (t', r) -> st_sigs t' = st_sigs t /\ st_identities t' = st_identities t).
      { intros x t t' r. unfold consume_extension, bind, get. destruct (mget _ _); unfold lift, ret; [destruct (merge_op _ _ _); cbn [rmap_err]|];
          unfold replace_extension, bind, get, grown, lift, put, ret; try (destruct (cinsert _ _ _ _); cbn [ok_or]); intros X; injection X as <- _; split; reflexivity. }
      assert (F3 : forall x t t' r, consume_bundle H x t = (t', r) -> st_sigs t' = st_sigs t /\ st_identities t' = st_identities t).
      { intros x t t' r. unfold consume_bundle, bind, get. destruct (mget _ _); unfold lift, ret; [destruct (merge_bundle _ _ _); cbn [rmap_err]|];
          unfold replace_bundle, bind, get, grown, lift, put, ret; try (destruct (cinsert _ _ _ _); cbn [ok_or]); intros X; injection X as <- _; split; reflexivity. }
      assert (F4 : forall x t t' r, consume_witness x t = (t', r) -> st_sigs t' = st_sigs t /\ st_identities t' = st_identities t).
      { intros x t t' r. unfold consume_witness, bind, get. destruct (mget _ _); unfold lift, ret; [destruct (merge_xpub _ _); cbn [rmap_err]; [destruct (merge_anchors _ _); cbn [rmap_err]| |]|];
          unfold ret, replace_witness, bind, get, grown, lift, put, ret; try (destruct (cinsert _ _ _ _); cbn [ok_or]); intros X; injection X as <- _; split; reflexivity. }
      assert (F5 : forall cid l t t' r, anchor_all H K cid l t = (t', r) -> st_sigs t' = st_sigs t /\ st_identities t' = st_identities t).
      { intros cid. induction l as [|p l IH]; intros t t' r; cbn [anchor_all]; [intros X; injection X as <- _; auto|].
        unfold bind at 1. unfold anchor_bundle at 1. cbv zeta. unfold bind at 1.
        destruct (consume_bundle H (snd p) t) as [t1 y] eqn:Eb1. apply F3 in Eb1 as [X1 X2].
        destruct y as [y|y|]; [|intros X; injection X as <- _; auto|intros X; injection X as <- _; auto].
        unfold bind at 1, lift. destruct (mk_with _ _ _ _); cbn [ok_or]; [|intros X; injection X as <- _; auto].
        unfold ret, bind. destruct (anchor_all H K cid l t1) as [t2 z] eqn:Eb2. apply IH in Eb2 as [Y1 Y2].
        destruct z; intros X; injection X as <- _; split; congruence. }
      assert (F6 : forall cid x t t' r, consume_witness_bundle H K cid x t = (t', r) -> st_sigs t' = st_sigs t /\ st_identities t' = st_identities t).
      { intros cid x t t' r. unfold consume_witness_bundle, bind at 1. destruct (anchor_all _ _ _ _ t) as [t1 y] eqn:E1. apply F5 in E1 as [X1 X2].
        destruct y as [y|y|]; [|intros X; injection X as <- _; auto|intros X; injection X as <- _; auto].
        unfold bind at 1. assert (P : exists z, anchors_of y t1 = (t1, z)).
        { unfold anchors_of. destruct (rev y) as [|[[] u] [|[[] v] q]]; unfold ret, panic; eexists; reflexivity. }
        destruct P as [[z|z|] ->]; [|intros X; injection X as <- _; auto|intros X; injection X as <- _; auto].
        unfold bind. destruct (consume_witness _ t1) as [t2 w] eqn:E2. apply F4 in E2 as [Y1 Y2].
        destruct w; intros X; injection X as <- _; split; congruence. }
      assert (FM : forall A (f : A -> STM unit), (forall x t t' r, f x t = (t', r) -> st_sigs t' = st_sigs t /\ st_identities t' = st_identities t) ->
        forall l t t' r, mfor f l t = (t', r) -> st_sigs t' = st_sigs t /\ st_identities t' = st_identities t).
      { intros A f F. induction l as [|x l IH]; intros t t' r; cbn [mfor]; [intros X; injection X as <- _; auto|].
        unfold bind. destruct (f x t) as [t1 y] eqn:E1. apply F in E1 as [X1 X2].
        destruct y as [y|y|]; [|intros X; injection X as <- _; auto|intros X; injection X as <- _; auto].
        intros X. apply IH in X as [Y1 Y2]. split; congruence. }
      apply F1 in Ea as [X1 X2]. apply (FM _ _ F2) in Eb as [Y1 Y2]. apply (FM _ _ (F6 _)) in Ec as [Z1 Z2].
      simpl. split; congruence. }
    destruct Es as [Es1 Es2]. cbn [kit_of k_signatures]. unfold sigs_room, sigs_for. rewrite Es1, Es2. split; [exact Q1|split; [exact Q2|exact Q3]].
  - exact R1.
  - exact E.
  - exact St1.
  - exists s2, r. split; [exact Ek|]. destruct Hk as [-> |[-> V]]; [left; reflexivity|]. right. split; [reflexivity|].
    destruct V as [V1 V2 V3 V4 V5 V6 V7 V8 V9 V10 V11 V12 V13 V14]. constructor; try assumption.
    intros id. rewrite V9. cbn [st_attachments with_attachments].
    destruct (kit_success _ _ _ E) as [I _]. destruct (ki_rest _ _ _ I) as (_ & _ & _ & _ & P & _). rewrite P.
    cbn [sd attachments_done st_attachments with_attachments]. apply overwrite_again.
Qed.

(** ** Calls which leave the secret seals alone *)

Definition same_seals {A} (m : STM A) : Prop := forall s, st_seals (fst (m s)) = st_seals s.

Lemma ss_ret {A} (a : A) : same_seals (ret a). Proof. intros s; reflexivity. Qed.
Lemma ss_lift {A} (r : result StashError A) : same_seals (lift r). Proof. intros s; reflexivity. Qed.
Lemma ss_panic {A} : same_seals (panic : STM A). Proof. intros s; reflexivity. Qed.
Lemma ss_bind {A B} (m : STM A) (k : A -> STM B) : same_seals m -> (forall a, same_seals (k a)) -> same_seals (bind m k).
Proof.
  intros F G s. unfold bind. specialize (F s). destruct (m s) as [s1 [a|e|]]; cbn [fst] in *; [|exact F|exact F].
  rewrite (G a s1). exact F.
Qed.
Lemma ss_mfor {A} (f : A -> STM unit) l : (forall a, same_seals (f a)) -> same_seals (mfor f l).
Proof. intros F. induction l; [apply ss_ret|]. cbn [mfor]. apply ss_bind; auto. Qed.
Lemma ss_attempt {A} (m : STM A) : same_seals m -> same_seals (attempt m).
Proof. intros F s. specialize (F s). unfold attempt. destruct (m s) as [s1 [a|e|]]; exact F. Qed.

(** Reading the state and writing back one with the same seals *)
Lemma ss_get {A} (k : MemStash -> STM A) : (forall t, st_seals (fst (k t t)) = st_seals t) -> same_seals (bind get k).
Proof. intros F s. exact (F s). Qed.

Ltac write := apply ss_get; intros t; unfold bind, grown, lift, put, ret, panic;
  repeat match goal with
  | |- context [match mget ?a ?b with _ => _ end] => destruct (mget a b)
  | |- context [cinsert ?a ?b ?c ?d] => destruct (cinsert a b c d); cbn [ok_or]
  | |- context [cpush ?a ?b ?c] => destruct (cpush a b c); cbn [ok_or]
  | |- context [if ?c then _ else _] => destruct c
  end; reflexivity.

Lemma ss_schema x : same_seals (replace_schema x). Proof. unfold replace_schema. write. Qed.
Lemma ss_iface x : same_seals (replace_iface x). Proof. unfold replace_iface. write. Qed.
Lemma ss_iimpl x : same_seals (replace_iimpl x). Proof. unfold replace_iimpl. write. Qed.
Lemma ss_lib x : same_seals (replace_lib x). Proof. unfold replace_lib. write. Qed.
Lemma ss_attachment x y : same_seals (replace_attachment x y). Proof. unfold replace_attachment. write. Qed.
Lemma ss_suppl x : same_seals (add_supplement x). Proof. unfold add_supplement. write. Qed.
Lemma ss_types x : same_seals (consume_types x). Proof. unfold consume_types. apply ss_mfor. intros a. write. Qed.
Lemma ss_rgenesis H x : same_seals (replace_genesis H x). Proof. unfold replace_genesis. write. Qed.
Lemma ss_rextension H x : same_seals (replace_extension H x). Proof. unfold replace_extension. write. Qed.
Lemma ss_rbundle H x : same_seals (replace_bundle H x). Proof. unfold replace_bundle. write. Qed.
Lemma ss_rwitness x : same_seals (replace_witness x). Proof. unfold replace_witness. write. Qed.
Lemma ss_sigs c l : same_seals (import_sigs c l).
Proof.
  unfold import_sigs. apply ss_get. intros t. destruct (mget c (st_sigs t)) as [p|]; destruct (add_sigs _ _ _) as [[ids acc] ok];
    unfold bind, put, get, ret, fail; [destruct ok; reflexivity|].
  destruct ok; [|reflexivity]. cbn [negb]. destruct (len acc =? 0); [reflexivity|]. destruct (cinsert _ _ _ _); reflexivity.
Qed.

Lemma ss_kit k : same_seals (consume_kit k).
Proof.
  unfold consume_kit. repeat (apply ss_bind; [|intros _]).
  - apply ss_types.
  - apply ss_mfor. intros. apply ss_bind; [apply ss_lib|intros; apply ss_ret].
  - apply ss_mfor. intros. apply ss_bind; [apply ss_schema|intros; apply ss_ret].
  - apply ss_mfor. intros. apply ss_bind; [apply ss_iface|intros; apply ss_ret].
  - apply ss_mfor. intros. apply ss_bind; [apply ss_iimpl|intros; apply ss_ret].
  - apply ss_mfor. intros. apply ss_suppl.
  - apply ss_mfor. intros. apply ss_attempt, ss_sigs.
Qed.

Lemma ss_genesis H g : same_seals (consume_genesis H g).
Proof.
  unfold consume_genesis. apply ss_get. intros t. destruct (mget _ _).
  - unfold bind at 1, lift. destruct (merge_op _ _ _); cbn [rmap_err]; try reflexivity. apply ss_bind; [apply ss_rgenesis|intros; apply ss_ret].
  - unfold bind at 1, ret at 1. apply ss_bind; [apply ss_rgenesis|intros; apply ss_ret].
Qed.
Lemma ss_extension H g : same_seals (consume_extension H g).
Proof.
  unfold consume_extension. apply ss_get. intros t. destruct (mget _ _).
  - unfold bind at 1, lift. destruct (merge_op _ _ _); cbn [rmap_err]; try reflexivity. apply ss_bind; [apply ss_rextension|intros; apply ss_ret].
  - unfold bind at 1, ret at 1. apply ss_bind; [apply ss_rextension|intros; apply ss_ret].
Qed.
Lemma same_seals_bundle H b : same_seals (consume_bundle H b).
Proof.
  unfold consume_bundle. apply ss_get. intros t. destruct (mget _ _).
  - unfold bind, lift. destruct (merge_bundle _ _ _); cbn [rmap_err]; try reflexivity. apply ss_rbundle.
  - unfold bind, ret. apply ss_rbundle.
Qed.
Lemma same_seals_witness w : same_seals (consume_witness w).
Proof.
  unfold consume_witness. apply ss_get. intros t. destruct (mget _ _).
  - unfold bind, lift. destruct (merge_xpub _ _); cbn [rmap_err]; try reflexivity.
    destruct (merge_anchors _ _); cbn [rmap_err]; try reflexivity. unfold ret. apply ss_rwitness.
  - unfold bind, ret. apply ss_rwitness.
Qed.
Lemma ss_anchor_all H K cid l : same_seals (anchor_all H K cid l).
Proof.
  induction l; [apply ss_ret|]. cbn [anchor_all]. apply ss_bind; [|intros; apply ss_bind; [exact IHl|intros; apply ss_ret]].
  unfold anchor_bundle. cbv zeta. apply ss_bind; [apply same_seals_bundle|intros]. apply ss_bind; [apply ss_lift|intros; apply ss_ret].
Qed.
Lemma ss_anchors_of l : same_seals (anchors_of l).
Proof. unfold anchors_of. destruct (rev l) as [|[[] u] [|[[] v] q]]; (apply ss_ret || apply ss_panic). Qed.

Lemma same_seals_consignment H K c s : st_seals (fst (consume_consignment H K c s)) = st_seals s.
Proof.
  revert s. change (same_seals (consume_consignment H K c)). unfold consume_consignment. cbv zeta.
  apply ss_bind; [apply ss_genesis|intros _]. apply ss_bind; [apply ss_mfor; intros; apply ss_extension|intros _].
  apply ss_bind; [|intros _; apply ss_bind; [|intros _; apply ss_kit]].
  - apply ss_mfor. intros wb. unfold consume_witness_bundle. apply ss_bind; [apply ss_anchor_all|intros].
    apply ss_bind; [apply ss_anchors_of|intros]. apply ss_bind; [apply same_seals_witness|intros; apply ss_ret].
  - apply ss_mfor. intros. apply ss_bind; [apply ss_attachment|intros; apply ss_ret].
Qed.
Lemma same_seals_kit k s : st_seals (fst (consume_kit k s)) = st_seals s.
Proof. apply ss_kit. Qed.
Lemma same_seals_bind {A B} (m : STM A) (k : A -> STM B) s : same_seals m -> (forall a t, st_seals (fst (k a t)) = st_seals t) ->
  st_seals (fst (bind m k s)) = st_seals s.
Proof. intros F G. apply ss_bind; [exact F|exact G]. Qed.
