(** * Proofs about parents of interfaces and about implementations *)
From Verif Require Import Base IfaceModel IfaceSpec IfaceProofs IfaceExt.
Local Open Scope N_scope.

(** ** Refinement *)

Lemma refines_map_refl {V} (R : V -> V -> Prop) (Rr : forall v, R v v) m : refines_map R m m.
Proof. intros n p G. exists p. auto. Qed.
Lemma refines_map_trans {V} (R : V -> V -> Prop) (Rt : forall a b c, R a b -> R b c -> R a c) x y z :
  refines_map R x y -> refines_map R y z -> refines_map R x z.
Proof. intros A B n p G. destruct (B n p G) as [q [G' Q]]. destruct (A n q G') as [w [G'' W]]. exists w. eauto. Qed.
Lemma overridden_own {V} (R : V -> V -> Prop) (Rr : forall v, R v v) own ext r :
  overridden own ext r -> compatible_map R own ext -> refines_map R r own.
Proof.
  intros O C n p G. specialize (O n). destruct (mget n ext) as [e|] eqn:Ge.
  - exists e. split; [exact O|]. eauto.
  - exists p. split; [congruence|auto].
Qed.
Lemma overridden_ext {V} (R : V -> V -> Prop) (Rr : forall v, R v v) (own ext r : omap N V) :
  overridden own ext r -> refines_map R r ext.
Proof. intros O n p G. specialize (O n). rewrite G in O. exists p. auto. Qed.

Lemma refines_occ_refl a : refines_occ a a. Proof. unfold refines_occ. lia. Qed.
Lemma refines_occ_trans a b c : refines_occ a b -> refines_occ b c -> refines_occ a c.
Proof. unfold refines_occ. lia. Qed.
Lemma refines_state_refl a : refines_state a a. Proof. now left. Qed.
Lemma refines_state_trans a b c : refines_state a b -> refines_state b c -> refines_state a c.
Proof.
  unfold refines_state. intros [->|[->|[-> [x ->]]]] B; [exact B| |].
  - destruct B as [<-|[->|[_ [y Y]]]]; [now right; left|now right; left|discriminate].
  - destruct B as [<-|[->|[-> [y Y]]]]; [right; right; eauto|now right; left|discriminate].
Qed.
Lemma refines_global_refl a : refines_global a a. Proof. split; auto. Qed.
Lemma refines_global_trans a b c : refines_global a b -> refines_global b c -> refines_global a c.
Proof.
  intros [A1 A2] [B1 B2]. split; [|auto]. destruct B1 as [B1|B1]; [now left|]. destruct A1 as [A1|A1].
  - left. congruence.
  - right. congruence.
Qed.
Lemma refines_assign_refl a : refines_assign a a. Proof. split; [apply refines_state_refl|split; auto]. Qed.
Lemma refines_assign_trans a b c : refines_assign a b -> refines_assign b c -> refines_assign a c.
Proof. intros (A1 & A2 & A3) (B1 & B2 & B3). split; [eapply refines_state_trans; eassumption|split; auto]. Qed.
Lemma refines_default_refl a : refines_default a a. Proof. intros n H. exact H. Qed.
Lemma refines_default_trans a b c : refines_default a b -> refines_default b c -> refines_default a c.
Proof. intros A B n H. apply A, B, H. Qed.

Lemma refines_op_refl a : refines_op a a.
Proof. repeat split; try (intros ? ?; assumption); apply refines_map_refl, refines_occ_refl. Qed.
Lemma refines_op_trans a b c : refines_op a b -> refines_op b c -> refines_op a c.
Proof.
  intros (A1 & A2 & A3 & A4 & A5) (B1 & B2 & B3 & B4 & B5).
  split; [eapply incl_tran; eassumption|]. split; [eapply refines_map_trans; eauto using refines_occ_trans|].
  split; [eapply refines_map_trans; eauto using refines_occ_trans|]. split; eapply incl_tran; eassumption.
Qed.
Lemma refines_transition_refl a : refines_transition a a.
Proof. split; [apply refines_op_refl|]. split; [apply refines_map_refl, refines_occ_refl|apply refines_default_refl]. Qed.
Lemma refines_transition_trans a b c : refines_transition a b -> refines_transition b c -> refines_transition a c.
Proof.
  intros (A1 & A2 & A3) (B1 & B2 & B3). split; [eapply refines_op_trans; eassumption|].
  split; [eapply refines_map_trans; eauto using refines_occ_trans|]. eapply refines_default_trans; eassumption.
Qed.
Lemma refines_extension_refl a : refines_extension a a.
Proof. split; [apply refines_op_refl|]. split; [intros ? ?; assumption|apply refines_default_refl]. Qed.
Lemma refines_extension_trans a b c : refines_extension a b -> refines_extension b c -> refines_extension a c.
Proof.
  intros (A1 & A2 & A3) (B1 & B2 & B3). split; [eapply refines_op_trans; eassumption|].
  split; [eapply incl_tran; eassumption|]. eapply refines_default_trans; eassumption.
Qed.

Lemma refines_tables_refl a : refines_tables a a.
Proof.
  split; [auto|]. split; [apply refines_map_refl, refines_global_refl|]. split; [apply refines_map_refl, refines_assign_refl|].
  split; [now apply refines_map_refl|]. split; [apply refines_op_refl|]. split; [auto|apply refines_default_refl].
Qed.
Lemma refines_tables_trans a b c : refines_tables a b -> refines_tables b c -> refines_tables a c.
Proof.
  intros (A1 & A2 & A3 & A4 & A5 & A6 & A7) (B1 & B2 & B3 & B4 & B5 & B6 & B7).
  split; [auto|]. split; [eapply refines_map_trans; eauto using refines_global_trans|].
  split; [eapply refines_map_trans; eauto using refines_assign_trans|].
  split; [refine (refines_map_trans _ _ _ _ _ A4 B4); auto|].
  split; [eapply refines_op_trans; eassumption|]. split; [auto|]. eapply refines_default_trans; eassumption.
Qed.
Lemma refines_refl a : refines a a.
Proof.
  split; [apply refines_tables_refl|]. split; apply refines_map_refl; [apply refines_transition_refl|apply refines_extension_refl].
Qed.
Lemma refines_trans a b c : refines a b -> refines b c -> refines a c.
Proof.
  intros (A1 & A2 & A3) (B1 & B2 & B3). split; [eapply refines_tables_trans; eassumption|].
  split; eapply refines_map_trans; eauto using refines_transition_trans, refines_extension_trans.
Qed.
Lemma refines_required_trans a b c : refines a b -> refines_required b c -> refines_required a c.
Proof.
  intros (A1 & A2 & A3) (B1 & B2 & B3). split; [eapply refines_tables_trans; eassumption|]. split.
  - intros n p G Op. destruct (B2 n p G Op) as [q [Gq Q]]. destruct (A2 n q Gq) as [w [Gw W]]. exists w.
    split; [exact Gw|]. eapply refines_transition_trans; eassumption.
  - intros n p G Op. destruct (B3 n p G Op) as [q [Gq Q]]. destruct (A3 n q Gq) as [w [Gw W]]. exists w.
    split; [exact Gw|]. eapply refines_extension_trans; eassumption.
Qed.

Lemma joined_op_own own ext r : joined_op own ext r -> compatible_op own ext -> refines_op r own.
Proof.
  intros (_ & J1 & J2 & J3 & J4 & J5) (_ & C1 & C2).
  split; [intros n I; apply J1; now left|]. split; [eapply overridden_own; eauto using refines_occ_refl|].
  split; [eapply overridden_own; eauto using refines_occ_refl|]. split; intros n I; [apply J4|apply J5]; now left.
Qed.
Lemma joined_op_ext own ext r : joined_op own ext r -> refines_op r ext.
Proof.
  intros (_ & J1 & J2 & J3 & J4 & J5).
  split; [intros n I; apply J1; now right|]. split; [eapply overridden_ext; eauto using refines_occ_refl|].
  split; [eapply overridden_ext; eauto using refines_occ_refl|]. split; intros n I; [apply J4|apply J5]; now right.
Qed.
Lemma joined_default_own own ext r : joined_default own ext r -> compatible_default own ext -> refines_default r own.
Proof. intros -> C n E. destruct ext as [x|]; [|exact E]. f_equal. symmetry. now apply C. Qed.
Lemma joined_default_ext own ext r : joined_default own ext r -> refines_default r ext.
Proof. intros -> n E. now rewrite E. Qed.
Lemma joined_transition_own own ext r : joined_transition own ext r -> compatible_transition ext own -> refines_transition r own.
Proof.
  intros (J1 & J2 & J3 & _) (C1 & C2 & C3). split; [eapply joined_op_own; eassumption|].
  split; [eapply overridden_own; eauto using refines_occ_refl|]. eapply joined_default_own; eassumption.
Qed.
Lemma joined_transition_ext own ext r : joined_transition own ext r -> refines_transition r ext.
Proof.
  intros (J1 & J2 & J3 & _). split; [eapply joined_op_ext; eassumption|].
  split; [eapply overridden_ext; eauto using refines_occ_refl|]. eapply joined_default_ext; eassumption.
Qed.
Lemma joined_extension_own own ext r : joined_extension own ext r -> compatible_extension ext own -> refines_extension r own.
Proof.
  intros (J1 & J2 & J3 & _) (C1 & C3). split; [eapply joined_op_own; eassumption|].
  split; [intros n I; apply J2; now left|]. eapply joined_default_own; eassumption.
Qed.
Lemma joined_extension_ext own ext r : joined_extension own ext r -> refines_extension r ext.
Proof.
  intros (J1 & J2 & J3 & _). split; [eapply joined_op_ext; eassumption|].
  split; [intros n I; apply J2; now right|]. eapply joined_default_ext; eassumption.
Qed.

Lemma overridden_has {V} (own ext r : omap N V) : overridden own ext r ->
  forall n, mget n r <> None <-> mget n own <> None \/ mget n ext <> None.
Proof. intros O n. rewrite (O n). destruct (mget n ext), (mget n own); intuition congruence. Qed.

Section Joined.
  Context (id_of : FullIface -> N).

  Lemma joined_own own ext name r : joined id_of own ext name r -> compatible own ext -> refines r own.
  Proof.
    intros (_ & _ & _ & J1 & J2 & J3 & J4 & J5 & J6 & J7 & J8 & J9) (C2 & C3 & C4 & C5 & C6 & C7 & C9). split.
    - split; [intros n H; apply (overridden_has _ _ _ J1); auto|].
      split; [eapply overridden_own; eauto using refines_global_refl|]. split; [eapply overridden_own; eauto using refines_assign_refl|].
      split; [refine (overridden_own _ _ _ _ _ J4 C4); auto|]. split; [eapply joined_op_own; eassumption|].
      split; [intros n H; apply (overridden_has _ _ _ J8); auto|]. eapply joined_default_own; eassumption.
    - split; intros n p G; [specialize (J6 n)|specialize (J7 n)].
      + rewrite G in J6. destruct (mget n (ff_transitions ext)) as [e|] eqn:Ge.
        * destruct J6 as [x [Gx J]]. exists x. split; [exact Gx|]. eapply joined_transition_own; eauto.
        * exists p. split; [exact J6|apply refines_transition_refl].
      + rewrite G in J7. destruct (mget n (ff_extensions ext)) as [e|] eqn:Ge.
        * destruct J7 as [x [Gx J]]. exists x. split; [exact Gx|]. eapply joined_extension_own; eauto.
        * exists p. split; [exact J7|apply refines_extension_refl].
  Qed.
  Lemma joined_ext own ext name r : joined id_of own ext name r -> refines_required r ext.
  Proof.
    intros (_ & _ & _ & J1 & J2 & J3 & J4 & J5 & J6 & J7 & J8 & J9). split.
    - split; [intros n H; apply (overridden_has _ _ _ J1); auto|].
      split; [eapply overridden_ext; eauto using refines_global_refl|]. split; [eapply overridden_ext; eauto using refines_assign_refl|].
      split; [refine (overridden_ext _ _ _ _ _ J4); auto|]. split; [eapply joined_op_ext; eassumption|].
      split; [intros n H; apply (overridden_has _ _ _ J8); auto|]. eapply joined_default_ext; eassumption.
    - split; intros n p G Op; [specialize (J6 n)|specialize (J7 n)].
      + rewrite G in J6. destruct (mget n (ff_transitions own)) as [e|] eqn:Ge.
        * destruct J6 as [x [Gx J]]. exists x. split; [exact Gx|]. eapply joined_transition_ext; eauto.
        * rewrite Op in J6. exists p. split; [exact J6|apply refines_transition_refl].
      + rewrite G in J7. destruct (mget n (ff_extensions own)) as [e|] eqn:Ge.
        * destruct J7 as [x [Gx J]]. exists x. split; [exact Gx|]. eapply joined_extension_ext; eauto.
        * rewrite Op in J7. exists p. split; [exact J7|apply refines_extension_refl].
  Qed.

  Lemma inherit_fold name rest : forall f r, Forall iface_sorted rest ->
    rfold (fun f ext => extended id_of f ext name) f rest = Ok r ->
    refines r f /\ (forall x, In x rest -> refines_required r x) /\
    incl (ff_inherits f) (ff_inherits r) /\ (rest <> [] -> In (id_of f) (ff_inherits r) /\ ff_name r = name) /\
    (forall x, In x rest -> incl (ff_inherits x) (ff_inherits r) /\ In (id_of x) (ff_inherits r)).
  Proof.
    induction rest as [|e rest IH]; intros f r S E; cbn in E.
    - injection E as <-. split; [apply refines_refl|]. split; [intros x []|]. split; [intros x I; exact I|]. split; [congruence|intros x []].
    - destruct (extended id_of f e name) as [g|er|] eqn:X; [|discriminate|discriminate]. cbn in E.
      pose proof (Forall_inv S) as Se. apply Forall_inv_tail in S.
      destruct (extended_ok id_of _ _ _ _ Se X) as [J C]. destruct (IH _ _ S E) as (I1 & I2 & I3 & I4 & I5).
      pose proof J as (N1 & _ & N2 & _).
      assert (Inh : incl (ff_inherits f ++ [id_of f] ++ ff_inherits e ++ [id_of e]) (ff_inherits r)) by (rewrite <- N2; exact I3).
      split; [eapply refines_trans; [exact I1|eapply joined_own; eassumption]|].
      split. { intros x [<-|Hx]; [|auto]. eapply refines_required_trans; [exact I1|eapply joined_ext; eassumption]. }
      split. { intros x Hx. apply Inh. apply in_or_app. now left. }
      split. { intros _. split; [apply Inh; apply in_or_app; right; now left|].
               destruct rest as [|e2 rest]; [cbn in E; injection E as <-; exact N1|]. now apply I4. }
      intros x [<-|Hx]; [|auto]. split.
      + intros y Hy. apply Inh. apply in_or_app; right. apply in_or_app; right. apply in_or_app. now left.
      + apply Inh. apply in_or_app; right. apply in_or_app; right. apply in_or_app. right. now left.
  Qed.
End Joined.

(** ** Implementations *)

Lemma times_cons n p l : times n (p :: l) = (if snd p =? n then 1 else 0) + times n l.
Proof. unfold times, len. cbn. destruct (snd p =? n); cbn [length]; lia. Qed.
Lemma times_zero n l : times n l = 0 <-> forall id, ~ In (id, n) l.
Proof.
  induction l as [|[i m] l IH]; [cbn; split; auto|]. rewrite times_cons. cbn [snd]. destruct (N.eqb_spec m n) as [->|Ne].
  - split; [lia|]. intros H. destruct (H i). now left.
  - rewrite N.add_0_l, IH. split; intros H id; [intros [X|X]; [congruence|exact (H id X)]|]. intros X. apply (H id). now right.
Qed.

Definition count_step (m : omap N N) (p : N * N) : omap N N :=
  match mget (snd p) m with Some c => minsert (snd p) (c + 1) m | None => minsert (snd p) 0 m end.
Lemma count_fold l : forall m n,
  mget n (fold_left count_step l m) =
  match mget n m with
  | Some c => Some (c + times n l)
  | None => if times n l =? 0 then None else Some (times n l - 1)
  end.
Proof.
  induction l as [|[i k] l IH]; intros m n.
  - cbn. destruct (mget n m); [|reflexivity]. f_equal. unfold times, len. cbn. lia.
  - cbn [fold_left]. rewrite IH, times_cons. cbn [snd]. unfold count_step. cbn [snd]. destruct (N.eqb_spec k n) as [->|Ne].
    + destruct (mget n m) as [c|].
      * rewrite mget_insert_eq. f_equal. lia.
      * rewrite mget_insert_eq. destruct (N.eqb_spec (1 + times n l) 0); [lia|]. f_equal. lia.
    + rewrite N.add_0_l. destruct (mget k m); rewrite mget_insert_ne by congruence; reflexivity.
Qed.
Lemma count_names_get l n : mget n (count_names l) = if times n l =? 0 then None else Some (times n l - 1).
Proof. unfold count_names. exact (count_fold l [] n). Qed.
Lemma count_sorted l : forall m, msorted m -> msorted (fold_left count_step l m).
Proof.
  induction l as [|[i k] l IH]; intros m S; [exact S|]. cbn. apply IH. unfold count_step. destruct (mget _ m); now apply minsert_sorted.
Qed.
Lemma count_names_sorted l : msorted (count_names l).
Proof. exact (count_sorted l [] msorted_nil). Qed.

Lemma check_table_In t names in_schema l e :
  In e (check_table t names in_schema l) <->
  (exists n, e = IfaceAbsentIn t n /\ In n names /\ forall id, ~ In (id, n) l) \/
  (exists id n, e = SchemaAbsentIn t n id /\ In (id, n) l /\ in_schema id = false) \/
  (exists n, e = RepeatedIn t n (times n l - 1) /\ 3 <= times n l).
Proof.
  unfold check_table. rewrite !in_app_iff. split.
  - intros [H|[H|H]].
    + apply flat_one_In in H. destruct H as [n [I [F ->]]]. left. exists n. split; [reflexivity|]. split; [exact I|].
      intros id J. rewrite forallb_forall in F. specialize (F _ J). cbn in F. rewrite N.eqb_refl in F. discriminate.
    + apply in_flat_map in H. destruct H as [[id n] [I H]]. cbn in H. destruct (in_schema id) eqn:Q; [destruct H|].
      destruct H as [<-|[]]. right; left. exists id, n. auto.
    + apply (flat_one_In (fun p => _) (fun p => _)) in H. destruct H as [[n c] [I [H ->]]]. cbn in *. apply N.ltb_lt in H.
      apply (In_mget _ _ _ (count_names_sorted l)) in I. rewrite count_names_get in I. destruct (N.eqb_spec (times n l) 0); [discriminate|].
      apply Some_inj in I. right; right. exists n. split; [now rewrite I|lia].
  - intros [[n [-> [I F]]]|[[id [n [-> [I F]]]]|[n [-> F]]]].
    + left. apply flat_one_In. exists n. split; [exact I|]. split; [|reflexivity]. apply forallb_forall. intros [i k] J. cbn.
      apply negb_true_iff, N.eqb_neq. intros ->. exact (F i J).
    + right; left. apply in_flat_map. exists (id, n). split; [exact I|]. cbn. rewrite F. now left.
    + right; right. apply (flat_one_In (fun p => _) (fun p => _)). exists (n, times n l - 1). cbn. split.
      * apply mget_In. rewrite count_names_get. destruct (N.eqb_spec (times n l) 0); [lia|reflexivity].
      * split; [|reflexivity]. apply N.ltb_lt. lia.
Qed.

Definition iface_names (f : FullIface) (t : ImplTable) : list N :=
  match t with
  | TMeta => mkeys (ff_metadata f) | TGlobal => mkeys (ff_globals f) | TAssignment => mkeys (ff_assigns f)
  | TValency => mkeys (ff_valencies f) | TTransition => mkeys (ff_transitions f) | TExtension => mkeys (ff_extensions f)
  end.
Definition schema_hasb (s : FullSchema) (t : ImplTable) (id : N) : bool :=
  match t with
  | TMeta => mhas id (fs_meta s) | TGlobal => mhas id (fs_globals s) | TAssignment => mhas id (fs_owned s)
  | TValency => smem id (fs_valencies s) | TTransition => mhas id (fs_transitions s) | TExtension => mhas id (fs_extensions s)
  end.
Lemma iface_names_iff f t n : In n (iface_names f t) <-> iface_has f t n.
Proof. destruct t; cbn; symmetry; apply mget_none_key. Qed.
Lemma schema_hasb_iff s t id : schema_hasb s t id = true <-> schema_has s t id.
Proof. destruct t; cbn; first [apply smem_In|apply mhas_iff]. Qed.
Lemma schema_hasb_not s t id : schema_hasb s t id = false <-> ~ schema_has s t id.
Proof. rewrite <- schema_hasb_iff. destruct (schema_hasb s t id); split; congruence. Qed.

Definition tables : list ImplTable := [TMeta; TGlobal; TAssignment; TValency; TTransition; TExtension].
Definition impl_errors (now : Z) (is_date : Z -> bool) (im : FullImpl) (f : FullIface) (s : FullSchema) : list ImplInconsistency :=
  (if is_date (fm_timestamp im) then if (now <? fm_timestamp im)%Z then [ImplFutureTimestamp (fm_timestamp im)] else []
   else [ImplInvalidTimestamp (fm_timestamp im)]) ++
  flat_map (fun t => check_table t (iface_names f t) (schema_hasb s t) (impl_fields im t)) tables ++
  flat_map (fun p => if mhas (snd p) (ff_errors f) then [] else [IfaceErrorAbsent (snd p)]) (fm_errors im).
Lemma impl_check_errors now is_date im f s :
  impl_check now is_date im f s = match impl_errors now is_date im f s with [] => Ok tt | _ => Err (impl_errors now is_date im f s) end.
Proof. unfold impl_check, impl_errors. cbn [flat_map tables]. rewrite app_nil_r, <- !app_assoc. reflexivity. Qed.

Lemma impl_In now is_date im f s e : In e (impl_errors now is_date im f s) <-> impl_fails now is_date im f s e.
Proof.
  unfold impl_errors. rewrite !in_app_iff.
  assert (T : In e (flat_map (fun t => check_table t (iface_names f t) (schema_hasb s t) (impl_fields im t)) tables) <->
    exists t, In e (check_table t (iface_names f t) (schema_hasb s t) (impl_fields im t))).
  { rewrite in_flat_map. split; [intros [t [_ H]]; eauto|]. intros [t H]. exists t. split; [|exact H]. destruct t; cbn; tauto. }
  rewrite T. clear T. split.
  - intros [H|[[t H]|H]].
    + destruct (is_date (fm_timestamp im)) eqn:D.
      * destruct (now <? fm_timestamp im)%Z eqn:L; [|destruct H]. apply Z.ltb_lt in L. destruct H as [<-|[]]. cbn. auto.
      * destruct H as [<-|[]]. cbn. auto.
    + apply check_table_In in H. destruct H as [[n [-> [I F]]]|[[id [n [-> [I F]]]]|[n [-> F]]]]; cbn.
      * split; [now apply iface_names_iff|exact F].
      * split; [exact I|now apply schema_hasb_not].
      * auto.
    + apply in_flat_map in H. destruct H as [[id n] [I H]]. cbn in H. destruct (mhas n (ff_errors f)) eqn:Q; [destruct H|].
      destruct H as [<-|[]]. cbn. split; [eauto|now apply mhas_not].
  - destruct e; cbn; intros F.
    + destruct F as [-> F]. left. rewrite F. now left.
    + destruct F as [-> [F L]]. left. apply Z.ltb_lt in L. rewrite F, L. now left.
    + right; left. exists t. apply check_table_In. left. exists name. split; [reflexivity|]. split; [apply iface_names_iff; apply F|apply F].
    + right; left. exists t. apply check_table_In. right; left. exists ty, name. split; [reflexivity|].
      split; [apply F|apply schema_hasb_not, F].
    + right; left. exists t. apply check_table_In. right; right. exists name. destruct F as [F ->]. auto.
    + right; right. destruct F as [[id I] F]. apply in_flat_map. exists (id, name). split; [exact I|]. cbn. apply mhas_not in F.
      rewrite F. now left.
Qed.

(** Lookups *)
Lemma type_of_some l n id : type_of l n = Some id -> In (id, n) l.
Proof.
  unfold type_of. destruct (find (fun p => snd p =? n) l) as [[i k]|] eqn:F; [|discriminate]. intros E. cbn in E. apply Some_inj in E.
  apply find_some in F. destruct F as [I Q]. cbn in Q. apply N.eqb_eq in Q. now subst.
Qed.
Lemma type_of_none l n : type_of l n = None <-> forall id, ~ In (id, n) l.
Proof.
  unfold type_of. destruct (find (fun p => snd p =? n) l) as [[i k]|] eqn:F; cbn.
  - apply find_some in F. destruct F as [I Q]. cbn in Q. apply N.eqb_eq in Q. subst. split; [discriminate|]. intros H. destruct (H i I).
  - split; [|reflexivity]. intros _ id I. apply (find_none _ _ F) in I. cbn in I. rewrite N.eqb_refl in I. discriminate.
Qed.
Lemma name_of_some l n id : name_of l id = Some n -> In (id, n) l.
Proof.
  unfold name_of. destruct (find (fun p => fst p =? id) l) as [[i k]|] eqn:F; [|discriminate]. intros E. cbn in E. apply Some_inj in E.
  apply find_some in F. destruct F as [I Q]. cbn in Q. apply N.eqb_eq in Q. now subst.
Qed.
Lemma name_of_in l n id : In (id, n) l -> exists m, name_of l id = Some m.
Proof.
  intros I. unfold name_of. destruct (find (fun p => fst p =? id) l) as [[i k]|] eqn:F; [cbn; eauto|].
  apply (find_none _ _ F) in I. cbn in I. rewrite N.eqb_refl in I. discriminate.
Qed.
Lemma type_of_in l n id : In (id, n) l -> exists i, type_of l n = Some i.
Proof. intros I. destruct (type_of l n) eqn:E; [eauto|]. destruct (proj1 (type_of_none l n) E id I). Qed.

(** Abstraction *)
Lemma abstract_table_In {V W} (base : omap N V) (parent : omap N W) l id n :
  In (id, n) (abstract_table base parent l) <->
  mget n base <> None /\ mget n parent <> None /\ type_of l n = Some id.
Proof.
  unfold abstract_table. rewrite sfrom_In, filter_map_In. split.
  - intros [k [I F]]. apply find_some in F as F'. destruct F' as [J Q]. cbn in Q. apply andb_true_iff in Q. destruct Q as [Q1 Q2].
    apply N.eqb_eq in Q2. subst k. rewrite Q1 in F. cbn in F. split; [now apply mget_none_key|]. split; [now apply mhas_iff|].
    unfold type_of. rewrite F. reflexivity.
  - intros [B [P T]]. exists n. split; [now apply mget_none_key|]. apply mhas_iff in P. rewrite P. cbn. unfold type_of in T.
    destruct (find (fun p => snd p =? n) l) as [[i k]|] eqn:F; [|discriminate]. cbn in T. apply Some_inj in T. subst i.
    apply find_some in F as F'. destruct F' as [_ Q]. cbn in Q. apply N.eqb_eq in Q. now subst.
Qed.
Lemma abstract_table_type {V W} (base : omap N V) (parent : omap N W) l n :
  type_of (abstract_table base parent l) n = if mhas n base && mhas n parent then type_of l n else None.
Proof.
  destruct (type_of (abstract_table base parent l) n) as [id|] eqn:E.
  - apply type_of_some in E. apply abstract_table_In in E. destruct E as [B [P T]]. apply mhas_iff in B, P. now rewrite B, P.
  - destruct (mhas n base && mhas n parent) eqn:Q; [|reflexivity]. apply andb_true_iff in Q. destruct Q as [B P].
    apply mhas_iff in B, P. destruct (type_of l n) as [id|] eqn:T; [|reflexivity]. exfalso.
    rewrite type_of_none in E. apply (E id). apply abstract_table_In. auto.
Qed.
