From Verif Require Import Base MergeModel MergeSpec.
Local Open Scope N_scope.

(** ** Assignments *)
Lemma merge_assign_most H a b :
  same_assignment H a b -> most_revealed H a b (merge_assign a b).
Proof.
  unfold same_assignment. intros E.
  destruct a, b; simpl in *; split; simpl; try (split; intros; (tauto || (split; congruence)));
    try congruence; auto; try (intuition congruence).
Qed.

Lemma merge_assign_idem a : merge_assign a a = a.
Proof. destruct a; reflexivity. Qed.

Lemma merge_assign_comm H a b :
  collision_free H -> same_assignment H a b -> merge_assign a b = merge_assign b a.
Proof.
  intros (Hs & Ht & _) E. unfold same_assignment in E.
  destruct a, b; simpl in *; injection E as E1 E2;
    repeat match goal with
    | E : h_seal H _ = h_seal H _ |- _ => apply Hs in E; subst
    | E : h_state H _ = h_state H _ |- _ => apply Ht in E; subst
    end; subst; reflexivity.
Qed.

Lemma merge_assign_assoc H a b c :
  collision_free H -> same_assignment H a b -> same_assignment H b c ->
  merge_assign a (merge_assign b c) = merge_assign (merge_assign a b) c.
Proof.
  intros (Hs & Ht & _) E F. unfold same_assignment in E, F.
  destruct a, b, c; simpl in *; injection E as E1 E2; injection F as F1 F2;
    try reflexivity; subst;
    repeat match goal with
    | E : h_seal H _ = h_seal H _ |- _ => apply Hs in E; subst
    | E : h_state H _ = h_state H _ |- _ => apply Ht in E; subst
    end; reflexivity.
Qed.

Lemma merge_assign_conceal H a b :
  same_assignment H a b -> conceal H (merge_assign a b) = conceal H a.
Proof. intros E. apply merge_assign_most in E. apply E. Qed.

(** ** Lists of assignments *)
Definition merge_list (l1 l2 : list Assign) : list Assign :=
  map (fun p => merge_assign (fst p) (snd p)) (combine l1 l2).

Lemma merge_list_conceal H l1 l2 :
  map (conceal H) l1 = map (conceal H) l2 ->
  map (conceal H) (merge_list l1 l2) = map (conceal H) l1.
Proof.
  unfold merge_list. revert l2. induction l1 as [|a l1 IH]; intros [|b l2] E; try discriminate; [reflexivity|].
  cbn [map] in E. injection E as E1 E2. cbn [combine map fst snd].
  rewrite IH by exact E2. f_equal. apply merge_assign_conceal. exact E1.
Qed.

Lemma merge_list_nth H l1 l2 no :
  map (conceal H) l1 = map (conceal H) l2 ->
  match nth_error l1 no, nth_error l2 no, nth_error (merge_list l1 l2) no with
  | Some x, Some y, Some z => same_assignment H x y /\ z = merge_assign x y
  | None, None, None => True
  | _, _, _ => False
  end.
Proof.
  unfold merge_list. revert l2 no. induction l1 as [|a l1 IH]; intros [|b l2] no E; try discriminate.
  - destruct no; exact I.
  - cbn [map] in E. injection E as E1 E2.
    destruct no as [|no]; cbn [nth_error combine map fst snd].
    + split; [exact E1|reflexivity].
    + apply IH. exact E2.
Qed.

Lemma merge_list_idem l : merge_list l l = l.
Proof.
  unfold merge_list. induction l as [|a l IH]; [reflexivity|]. cbn [combine map fst snd].
  rewrite merge_assign_idem. f_equal. exact IH.
Qed.

Lemma merge_list_comm H l1 l2 :
  collision_free H -> map (conceal H) l1 = map (conceal H) l2 -> merge_list l1 l2 = merge_list l2 l1.
Proof.
  intros HC. unfold merge_list. revert l2. induction l1 as [|a l1 IH]; intros [|b l2] E; try discriminate; [reflexivity|].
  cbn [map] in E. injection E as E1 E2. cbn [combine map fst snd].
  rewrite (IH l2 E2). f_equal. eapply merge_assign_comm; eassumption.
Qed.

Lemma merge_list_assoc H l1 l2 l3 :
  collision_free H -> map (conceal H) l1 = map (conceal H) l2 ->
  map (conceal H) l2 = map (conceal H) l3 ->
  merge_list l1 (merge_list l2 l3) = merge_list (merge_list l1 l2) l3.
Proof.
  intros HC. unfold merge_list. revert l2 l3. induction l1 as [|a l1 IH]; intros [|b l2] [|c l3] E F;
    try discriminate; [reflexivity|].
  cbn [map] in E, F. injection E as E1 E2. injection F as F1 F2.
  cbn [combine map fst snd]. rewrite IH by assumption. f_equal. eapply merge_assign_assoc; eassumption.
Qed.

(** ** Typed assignments and maps of them *)
Definition merge_t (a b : TypedAssigns) : TypedAssigns :=
  {| ta_kind := ta_kind a; ta_list := merge_list (ta_list a) (ta_list b) |}.

Lemma merge_typed_ok a b :
  ta_kind a = ta_kind b -> merge_typed a b = Ok (merge_t a b).
Proof. intros E. unfold merge_typed, merge_t, merge_list. rewrite E, kind_eqb_refl. reflexivity. Qed.

Definition merge_m (a b : Assignments) : Assignments :=
  map (fun p => (fst (fst p), merge_t (snd (fst p)) (snd (snd p)))) (combine a b).

Lemma minsert_last {V} (k : N) (v : V) (m : omap N V) :
  Forall (fun p => cmp (fst p) k = Lt) m -> minsert k v m = m ++ [(k, v)].
Proof.
  induction m as [|[k' v'] m IH]; intros F; [reflexivity|].
  pose proof (Forall_inv F) as F0. apply Forall_inv_tail in F. cbn [fst] in F0.
  cbn [minsert app].
  assert (E : cmp k k' = Gt) by (apply cmp_gt_lt; exact F0).
  rewrite E. rewrite IH by exact F. reflexivity.
Qed.

Definition aligned (H : Hashes) (a b : Assignments) : Prop :=
  Forall2 (fun p q => fst p = fst q /\ conceal_typed H (snd p) = conceal_typed H (snd q)) a b.

Lemma conceal_aligned H a b : conceal_assigns H a = conceal_assigns H b -> aligned H a b.
Proof.
  unfold conceal_assigns, mmap. revert b. induction a as [|[k t] a IH]; intros [|[k' t'] b] E;
    try discriminate; [constructor|].
  cbn [map fst snd] in E. injection E as E1 E2 E3 E4. constructor; [|apply IH, E4].
  cbn [fst snd]. split; [exact E1|]. unfold conceal_typed. congruence.
Qed.

Lemma aligned_conceal H a b : aligned H a b -> conceal_assigns H a = conceal_assigns H b.
Proof.
  induction 1 as [|[k t] [k' t'] a b [E1 E2] _ IH]; [reflexivity|].
  cbn [fst snd] in *. subst k'. unfold conceal_assigns, mmap in *. cbn [map fst snd]. rewrite E2.
  f_equal. exact IH.
Qed.

Lemma merge_fold_ok H a b acc :
  aligned H a b -> msorted (acc ++ a) ->
  rfold (fun acc p =>
           let! t := merge_typed (snd (fst p)) (snd (snd p)) in
           Ok (minsert (fst (fst p)) t acc))
        acc (combine a b) = Ok (acc ++ merge_m a b).
Proof.
  intros F. revert acc. induction F as [|[k t] [k' t'] a b [E1 E2] F IH]; intros acc S.
  - cbn. rewrite app_nil_r. reflexivity.
  - cbn [fst snd] in *. subst k'. cbn [combine rfold fst snd].
    rewrite (merge_typed_ok t t') by (unfold conceal_typed in E2; congruence).
    cbn [rbind].
    assert (L : Forall (fun p => cmp (fst p) k = Lt) acc).
    { clear - S. induction acc as [|[x y] acc IH]; [constructor|].
      cbn [app] in S. apply msorted_inv in S as [S1 S2].
      constructor; [|apply IH, S1].
      rewrite Forall_forall in S2. apply (S2 (k, t)). apply in_or_app. right. left. reflexivity. }
    rewrite minsert_last by exact L.
    rewrite IH.
    + unfold merge_m. cbn [combine map fst snd]. rewrite <- app_assoc. reflexivity.
    + clear - S. replace ((acc ++ [(k, merge_t t t')]) ++ a) with (acc ++ (k, merge_t t t') :: a)
        by (rewrite <- app_assoc; reflexivity).
      induction acc as [|p acc IH]; cbn [app] in *.
      * apply msorted_inv in S as [S1 S2]. constructor; [exact S1|].
        eapply Forall_impl; [|exact S2]. intros [x y] Hx. exact Hx.
      * apply msorted_inv in S as [S1 S2]. constructor; [apply IH, S1|].
        apply Forall_app in S2 as [S2 S3]. apply Forall_app. split; [exact S2|].
        constructor; [|exact (Forall_inv_tail S3)].
        exact (Forall_inv S3).
Qed.

Lemma merge_assigns_ok H a b :
  aligned H a b -> msorted a -> merge_assigns a b = Ok (merge_m a b).
Proof. intros F S. unfold merge_assigns. rewrite (merge_fold_ok H a b []) by assumption. reflexivity. Qed.

Lemma merge_m_aligned H a b : aligned H a b -> aligned H (merge_m a b) a.
Proof.
  induction 1 as [|[k t] [k' t'] a b [E1 E2] F IH]; [constructor|].
  unfold merge_m. cbn [combine map fst snd] in *. constructor; [|exact IH].
  cbn [fst snd]. split; [reflexivity|].
  unfold conceal_typed in *. injection E2 as E2 E3. unfold merge_t. cbn [ta_kind ta_list].
  f_equal. apply merge_list_conceal. exact E3.
Qed.

Lemma merge_m_keys H a b : aligned H a b -> map fst (merge_m a b) = map fst a.
Proof.
  induction 1 as [|[k t] [k' t'] a b [E1 E2] F IH]; [reflexivity|].
  unfold merge_m in *. cbn [combine map fst snd]. f_equal. exact IH.
Qed.

Lemma sorted_keys {V W} (m : omap N V) (m' : omap N W) :
  map fst m = map fst m' -> msorted m -> msorted m'.
Proof.
  revert m'. induction m as [|[k v] m IH]; intros [|[k' v'] m'] E S; try discriminate; [constructor|].
  cbn [map fst] in E. injection E as -> E. apply msorted_inv in S as [S F].
  constructor; [apply IH; assumption|].
  assert (G : Forall (fun x => cmp k' x = Lt) (map fst m)).
  { rewrite Forall_map. eapply Forall_impl; [|exact F]. intros [x y] Hx. exact Hx. }
  rewrite E, Forall_map in G. eapply Forall_impl; [|exact G]. intros [x y] Hx. exact Hx.
Qed.

Lemma merge_m_get H a b ty :
  aligned H a b ->
  match mget ty a, mget ty b, mget ty (merge_m a b) with
  | Some x, Some y, Some z => conceal_typed H x = conceal_typed H y /\ z = merge_t x y
  | None, None, None => True
  | _, _, _ => False
  end.
Proof.
  induction 1 as [|[k t] [k' t'] a b [E1 E2] F IH]; [exact I|].
  cbn [fst snd] in E1, E2. subst k'.
  unfold merge_m in *. cbn [combine map fst snd mget].
  destruct (keqb ty k); [split; [exact E2|reflexivity]|exact IH].
Qed.

Lemma merge_m_idem a : merge_m a a = a.
Proof.
  induction a as [|[k [ki l]] a IH]; [reflexivity|].
  unfold merge_m in *. cbn [combine map fst snd]. rewrite IH.
  unfold merge_t. cbn [ta_kind ta_list]. rewrite merge_list_idem. reflexivity.
Qed.

Lemma aligned_refl H a : aligned H a a.
Proof. induction a as [|p a IH]; constructor; [split; reflexivity|exact IH]. Qed.

Lemma merge_m_comm H a b : collision_free H -> aligned H a b -> merge_m a b = merge_m b a.
Proof.
  intros HC. induction 1 as [|[k t] [k' t'] a b [E1 E2] F IH]; [reflexivity|].
  cbn [fst snd] in *. subst k'. unfold merge_m in *. cbn [combine map fst snd]. rewrite IH.
  unfold conceal_typed in E2. injection E2 as E2 E3. unfold merge_t. rewrite E2.
  rewrite (merge_list_comm H _ _ HC E3). reflexivity.
Qed.

Lemma merge_m_assoc H a b c :
  collision_free H -> aligned H a b -> aligned H b c ->
  merge_m a (merge_m b c) = merge_m (merge_m a b) c.
Proof.
  intros HC F. revert c. induction F as [|[k t] [k' t'] a b [E1 E2] F IH]; intros c G; [reflexivity|].
  inversion G as [|? [k2 t2] ? c' [G1 G2] G3]; subst.
  cbn [fst snd] in *. unfold conceal_typed in E2, G2. injection E2 as E2 E3. injection G2 as G2 G4.
  unfold merge_m in *. cbn [combine map fst snd]. rewrite IH by assumption.
  unfold merge_t. cbn [ta_kind ta_list].
  rewrite (merge_list_assoc H) by assumption. reflexivity.
Qed.

(** ** Operations *)
Lemma conceal_op_same H a b :
  conceal_op H a = conceal_op H b ->
  same_but_assigns a b /\ conceal_assigns H (op_assigns a) = conceal_assigns H (op_assigns b).
Proof.
  intros E. unfold same_but_assigns. split.
  - apply (f_equal (fun o => set_assigns o [])) in E. exact E.
  - apply (f_equal op_assigns) in E. exact E.
Qed.

Lemma set_assigns_same a b x : same_but_assigns a b -> set_assigns a x = set_assigns b x.
Proof.
  unfold same_but_assigns. intros E.
  change (set_assigns (set_assigns a []) x = set_assigns (set_assigns b []) x).
  rewrite E. reflexivity.
Qed.

Lemma op_eta a : set_assigns a (op_assigns a) = a.
Proof. destruct a; reflexivity. Qed.

Lemma op_id_same H a b :
  binds (h_op H) (conceal_op H a) (conceal_op H b) -> op_id H a = op_id H b ->
  same_but_assigns a b /\ aligned H (op_assigns a) (op_assigns b).
Proof.
  intros B E. apply B in E. apply conceal_op_same in E as [E1 E2].
  split; [exact E1|apply conceal_aligned, E2].
Qed.

Lemma aligned_op_id H a b :
  same_but_assigns a b -> aligned H (op_assigns a) (op_assigns b) -> op_id H a = op_id H b.
Proof.
  intros E F. unfold op_id, conceal_op. apply aligned_conceal in F. rewrite F.
  f_equal. apply set_assigns_same. exact E.
Qed.

Lemma merge_op_ok H a b :
  binds (h_op H) (conceal_op H a) (conceal_op H b) -> op_id H a = op_id H b ->
  msorted (op_assigns a) ->
  merge_op H a b = Ok (set_assigns a (merge_m (op_assigns a) (op_assigns b))).
Proof.
  intros B E S. destruct (op_id_same H a b B E) as [_ F].
  unfold merge_op. rewrite (proj2 (N.eqb_eq _ _) E).
  rewrite (merge_assigns_ok H) by assumption. reflexivity.
Qed.

Lemma merge_op_join H a b :
  binds (h_op H) (conceal_op H a) (conceal_op H b) -> op_id H a = op_id H b ->
  msorted (op_assigns a) ->
  exists r, merge_op H a b = Ok r /\ op_join H a b r.
Proof.
  intros B E S. eexists. split; [apply merge_op_ok; assumption|].
  destruct (op_id_same H a b B E) as [Eab F].
  split.
  - reflexivity.
  - apply aligned_op_id; [reflexivity|]. cbn [op_assigns set_assigns]. apply merge_m_aligned, F.
  - intros ty. unfold slot_kind. cbn [op_assigns set_assigns].
    pose proof (merge_m_get H _ _ ty F) as G.
    destruct (mget ty (op_assigns a)), (mget ty (op_assigns b)), (mget ty (merge_m _ _));
      try contradiction; [|reflexivity].
    destruct G as [_ ->]. reflexivity.
  - cbn [op_assigns set_assigns]. eapply sorted_keys; [|exact S].
    symmetry. eapply merge_m_keys, F.
  - intros ty no. unfold slot. cbn [op_assigns set_assigns].
    pose proof (merge_m_get H _ _ ty F) as G.
    destruct (mget ty (op_assigns a)) as [x|], (mget ty (op_assigns b)) as [y|],
      (mget ty (merge_m _ _)) as [z|]; try contradiction; [|exact I].
    destruct G as [G ->]. unfold conceal_typed in G. injection G as _ G.
    pose proof (merge_list_nth H _ _ no G) as M. cbn [ta_list merge_t].
    destruct (nth_error (ta_list x) no), (nth_error (ta_list y) no),
      (nth_error (merge_list (ta_list x) (ta_list y)) no); try contradiction; [|exact I].
    destruct M as [M ->]. split; [exact M|]. apply merge_assign_most, M.
Qed.

Lemma merge_op_idem H a : msorted (op_assigns a) -> merge_op H a a = Ok a.
Proof.
  intros S. unfold merge_op. rewrite N.eqb_refl.
  rewrite (merge_assigns_ok H) by (auto using aligned_refl). cbn [rbind].
  rewrite merge_m_idem, op_eta. reflexivity.
Qed.

Lemma merge_op_comm H a b :
  collision_free H -> op_id H a = op_id H b ->
  msorted (op_assigns a) -> msorted (op_assigns b) -> merge_op H a b = merge_op H b a.
Proof.
  intros HC E S1 S2. pose proof HC as (_ & _ & Ho & _).
  rewrite !merge_op_ok by auto.
  destruct (op_id_same H a b (Ho _ _) E) as [Eab F].
  rewrite (merge_m_comm H _ _ HC F). f_equal. apply set_assigns_same, Eab.
Qed.

(** ** Bundles *)
Lemma merge_known H (acc mb : omap N Operation) :
  (forall k t, mget k acc = Some t -> op_id H t = k) ->
  (forall k t, mget k mb = Some t -> op_id H t = k) ->
  (forall k t, mget k acc = Some t -> msorted (op_assigns t)) ->
  (forall a b, binds (h_op H) a b) ->
  msorted acc -> msorted mb ->
  exists r,
    rfold (fun known p =>
             match mget (fst p) known with
             | Some t => let! t' := merge_op H t (snd p) in
                         Ok (minsert (fst p) t' (mremove (fst p) known))
             | None => Ok known
             end) acc mb = Ok r /\ msorted r /\
    forall k, merged_known H (mget k acc) (mget k mb) (mget k r).
Proof.
  intros Ka Kb Sa HB. revert acc Ka Sa. induction mb as [|[k t] mb IH]; intros acc Ka Sa Aa Bb.
  - exists acc. split; [reflexivity|]. split; [exact Aa|].
    intros k. cbn [mget]. unfold merged_known. destruct (mget k acc); [reflexivity|exact I].
  - apply msorted_inv in Bb as [Bb Fb].
    assert (Kt : op_id H t = k) by (apply (Kb k t); cbn [mget]; rewrite keqb_refl; reflexivity).
    assert (Nk : mget k mb = None).
    { destruct (mget k mb) as [t'|] eqn:E; [|reflexivity]. apply mget_In in E.
      rewrite Forall_forall in Fb. specialize (Fb _ E). cbn in Fb.
      destruct (cmp_lt_irrefl k Fb). }
    assert (Kb' : forall k0 t0, mget k0 mb = Some t0 -> op_id H t0 = k0).
    { intros k0 t0 E0. apply Kb. cbn [mget]. destruct (keqb k0 k) eqn:E; [|exact E0].
      apply keqb_true in E. subst. congruence. }
    cbn [rfold fst snd]. destruct (mget k acc) as [x|] eqn:Ex.
    + destruct (merge_op_join H x t) as (z & Ez & Jz).
      { apply HB. } { rewrite Kt. apply (Ka k x Ex). } { apply (Sa k x Ex). }
      rewrite Ez. cbn [rbind].
      destruct (IH Kb' (minsert k z (mremove k acc))) as (r & Er & Sr & Mr).
      { intros k0 t0 E0. destruct (key_dec k k0) as [<-|E].
        - rewrite mget_insert_eq in E0. apply Some_inj in E0. subst t0.
          rewrite (oj_id H x t z Jz). apply (Ka k x Ex).
        - rewrite mget_insert_ne, mget_remove_ne in E0 by congruence. apply Ka, E0. }
      { intros k0 t0 E0. destruct (key_dec k k0) as [<-|E].
        - rewrite mget_insert_eq in E0. apply Some_inj in E0. subst t0. apply (oj_sorted H x t z Jz).
        - rewrite mget_insert_ne, mget_remove_ne in E0 by congruence. eapply Sa, E0. }
      { apply minsert_sorted, mremove_sorted, Aa. }
      { exact Bb. }
      exists r. split; [exact Er|]. split; [exact Sr|].
      intros k0. specialize (Mr k0). cbn [mget].
      destruct (key_dec k k0) as [<-|E].
      * rewrite keqb_refl. rewrite mget_insert_eq, Nk in Mr. rewrite Ex.
        unfold merged_known in *. destruct (mget k r); [|contradiction]. subst. exact Jz.
      * rewrite mget_insert_ne, mget_remove_ne in Mr by congruence.
        rewrite (proj2 (keqb_neq k0 k)) by congruence. exact Mr.
    + destruct (IH Kb' acc Ka Sa Aa Bb) as (r & Er & Sr & Mr).
      exists r. split; [exact Er|]. split; [exact Sr|].
      intros k0. specialize (Mr k0). cbn [mget].
      destruct (keqb k0 k) eqn:E; [|exact Mr].
      apply keqb_true in E. subst k0. rewrite Ex in *. unfold merged_known in *.
      destruct (mget k r); [destruct (mget k mb); exact Mr|exact I].
Qed.

Lemma merged_length H (a b r : omap N Operation) :
  msorted a -> msorted r -> (forall k, merged_known H (mget k a) (mget k b) (mget k r)) ->
  len r = len a.
Proof.
  intros Sa Sr M. unfold len. f_equal.
  assert (E : mmap (fun _ => tt) r = mmap (fun _ => tt) a).
  { apply msorted_ext.
    - eapply sorted_keys; [|exact Sr]. unfold mmap. rewrite map_map. reflexivity.
    - eapply sorted_keys; [|exact Sa]. unfold mmap. rewrite map_map. reflexivity.
    - intros k. rewrite !mget_mmap. specialize (M k). unfold merged_known in M.
      destruct (mget k a), (mget k b), (mget k r); (reflexivity || contradiction). }
  apply (f_equal (@length _)) in E. unfold mmap in E. rewrite !map_length in E. exact E.
Qed.

Lemma merge_bundle_spec H a b :
  (forall x y, binds (h_op H) x y) -> bundle_wf H a -> bundle_wf H b ->
  if len (b_inputs a) <? len (b_known a) then merge_bundle H a b = Err InsufficientInputs
  else exists r, merge_bundle H a b = Ok r /\ b_method r = b_method a /\ b_inputs r = b_inputs a /\
       bundle_wf H r /\ forall k, merged_known H (mget k (b_known a)) (mget k (b_known b)) (mget k (b_known r)).
Proof.
  intros HB (Ka & Sa & Oa) (Kb & Sb & Ob).
  destruct (merge_known H (b_known a) (b_known b) Ka Kb Oa HB Sa Sb) as (r & Er & Sr & Mr).
  unfold merge_bundle. rewrite Er. cbn [rbind]. rewrite (merged_length H _ _ _ Sa Sr Mr).
  destruct (len (b_inputs a) <? len (b_known a)); [reflexivity|].
  eexists. split; [reflexivity|]. cbn [b_method b_inputs b_known].
  split; [reflexivity|]. split; [reflexivity|]. split; [|exact Mr].
  split; [|split].
  - intros k t E. specialize (Mr k). cbn [b_known] in E. rewrite E in Mr. unfold merged_known in Mr.
    destruct (mget k (b_known a)) as [x|] eqn:Ex; [|contradiction].
    specialize (Ka k x Ex). destruct (mget k (b_known b)) as [y|].
    + rewrite (oj_id H x y t Mr). exact Ka.
    + subst. reflexivity.
  - exact Sr.
  - intros k t E. specialize (Mr k). cbn [b_known] in E. rewrite E in Mr. unfold merged_known in Mr.
    destruct (mget k (b_known a)) as [x|] eqn:Ex; [|contradiction].
    destruct (mget k (b_known b)) as [y|].
    + apply (oj_sorted H x y t Mr).
    + subst. apply (Oa k x Ex).
Qed.

(** ** Revealing seals *)
Lemma reveal_assign_spec H seal a : reveals_only H seal a (reveal_assign H seal a).
Proof.
  unfold reveals_only. destruct a as [s st|s st|s st|s st]; cbn [reveal_assign conceal revealed_seal revealed_state];
    try (repeat split; reflexivity);
    destruct (N.eqb_spec s (h_seal H seal)); subst; repeat split; reflexivity.
Qed.

Lemma reveal_assign_idem H seal a :
  reveal_assign H seal (reveal_assign H seal a) = reveal_assign H seal a.
Proof.
  destruct a as [s st|s st|s st|s st]; cbn [reveal_assign]; try reflexivity;
    destruct (s =? h_seal H seal) eqn:E; cbn [reveal_assign]; try rewrite E; reflexivity.
Qed.

Lemma reveals_only_unique H seal a r1 r2 :
  reveals_only H seal a r1 -> reveals_only H seal a r2 -> r1 = r2.
Proof.
  intros (C1 & T1 & S1) (C2 & T2 & S2). rewrite <- S2 in S1. rewrite <- T2 in T1. rewrite <- C2 in C1.
  destruct r1, r2; cbn in *; congruence.
Qed.

Lemma reveal_op_spec H seal o : op_revealed H seal o (reveal_op H seal o).
Proof.
  split.
  - reflexivity.
  - intros ty. unfold slot_kind, reveal_op. cbn [op_assigns set_assigns]. rewrite mget_mmap.
    destruct (mget ty (op_assigns o)); reflexivity.
  - intros ty no. unfold slot, reveal_op. cbn [op_assigns set_assigns]. rewrite mget_mmap.
    destruct (mget ty (op_assigns o)) as [t|]; [|exact I]. cbn [option_map reveal_typed ta_list].
    rewrite nth_error_map. destruct (nth_error (ta_list t) no); [|exact I].
    apply reveal_assign_spec.
Qed.

Lemma reveal_op_aligned H seal m : aligned H (mmap (reveal_typed H seal) m) m.
Proof.
  induction m as [|[k t] m IH]; [constructor|]. cbn. constructor; [|exact IH].
  cbn. split; [reflexivity|]. unfold conceal_typed, reveal_typed. cbn [ta_kind ta_list].
  f_equal. rewrite map_map. apply map_ext. intros a. apply reveal_assign_spec.
Qed.

Lemma reveal_op_id H seal o : op_id H (reveal_op H seal o) = op_id H o.
Proof. apply aligned_op_id; [reflexivity|]. apply reveal_op_aligned. Qed.

Lemma mmap_idem {V} (f : V -> V) (m : omap N V) :
  (forall v, f (f v) = f v) -> mmap f (mmap f m) = mmap f m.
Proof.
  intros E. unfold mmap. rewrite map_map. apply map_ext. intros [k v]. cbn. rewrite E. reflexivity.
Qed.

Lemma reveal_typed_idem H seal t :
  reveal_typed H seal (reveal_typed H seal t) = reveal_typed H seal t.
Proof.
  unfold reveal_typed. cbn [ta_kind ta_list]. f_equal. rewrite map_map.
  apply map_ext. intros a. apply reveal_assign_idem.
Qed.

Lemma reveal_op_idem H seal o : reveal_op H seal (reveal_op H seal o) = reveal_op H seal o.
Proof.
  unfold reveal_op. cbn [op_assigns set_assigns].
  rewrite mmap_idem by apply reveal_typed_idem. reflexivity.
Qed.
