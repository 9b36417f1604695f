(** * Proofs about schema inheritance, interface checks and extension *)
From Verif Require Import Base IfaceModel IfaceSpec.
Local Open Scope N_scope.

Lemma occ_eqb_true a b : occ_eqb a b = true <-> a = b.
Proof.
  unfold occ_eqb. rewrite andb_true_iff, !N.eqb_eq. split; [|intros ->; split; reflexivity].
  destruct a, b; cbn. intros [-> ->]. reflexivity.
Qed.
Lemma gschema_eqb_true a b : gschema_eqb a b = true <-> a = b.
Proof.
  unfold gschema_eqb. rewrite andb_true_iff, !N.eqb_eq. split; [|intros ->; split; reflexivity].
  destruct a, b; cbn. intros [-> ->]. reflexivity.
Qed.
Lemma owned_eqb_true a b : owned_eqb a b = true <-> a = b.
Proof.
  destruct a, b; cbn; try rewrite N.eqb_eq; split; intros E; try discriminate; try reflexivity; try (now rewrite E);
  injection E; auto.
Qed.
Lemma oiface_eqb_true a b : oiface_eqb a b = true <-> a = b.
Proof.
  destruct a, b; cbn; try rewrite N.eqb_eq; split; intros E; try discriminate; try reflexivity; try (now rewrite E);
  injection E; auto.
Qed.

Lemma mget_none_key {V} n (m : omap N V) : mget n m <> None <-> In n (mkeys m).
Proof.
  split.
  - destruct (mget n m) eqn:E; [|congruence]. intros _. apply mget_In in E. apply in_map_iff. exists (n, v). auto.
  - intros I E. apply mget_None_notin in E. auto.
Qed.
Lemma mhas_iff {V} n (m : omap N V) : mhas n m = true <-> mget n m <> None.
Proof. unfold mhas. destruct (mget n m); split; congruence. Qed.
Lemma mhas_not {V} n (m : omap N V) : mhas n m = false <-> mget n m = None.
Proof. unfold mhas. destruct (mget n m); split; congruence. Qed.

(** ** Schema inheritance *)

Lemma unequal_In {V E} (eqb : V -> V -> bool) (OK : forall a b, eqb a b = true <-> a = b) root (err : N -> E) own e :
  msorted own -> In e (unequal eqb root err own) <-> exists n, e = err n /\ differs own root n.
Proof.
  intros S. unfold unequal. rewrite in_flat_map. split.
  - intros [[n v] [I J]]. cbn in J. apply (In_mget _ _ _ S) in I. exists n.
    destruct (mget n root) as [w|] eqn:G.
    + destruct (eqb v w) eqn:Q; [destruct J|]. destruct J as [<-|[]]. split; [reflexivity|]. exists v. split; [exact I|].
      intros X. rewrite G in X. injection X as ->. rewrite (proj2 (OK v v) eq_refl) in Q. discriminate.
    + destruct J as [<-|[]]. split; [reflexivity|]. exists v. split; [exact I|congruence].
  - intros [n [-> [v [G D]]]]. exists (n, v). split; [now apply mget_In|]. cbn.
    destruct (mget n root) as [w|] eqn:Gr; [|now left].
    destruct (eqb v w) eqn:Q; [|now left]. apply OK in Q. subst. now destruct D.
Qed.
Lemma missing_In {E} root (err : N -> E) own e :
  In e (missing root err own) <-> exists n, e = err n /\ In n own /\ ~ In n root.
Proof.
  unfold missing. rewrite in_flat_map. split.
  - intros [n [I J]]. destruct (smem n root) eqn:Q; [destruct J|]. destruct J as [<-|[]]. exists n. apply smem_false in Q. auto.
  - intros [n [-> [I J]]]. exists n. split; [exact I|]. apply smem_false in J. rewrite J. now left.
Qed.

Lemma op_inheritance_In ty own root e : op_schema_sorted own ->
  In e (op_inheritance ty own root) <->
  (exists n, e = OpGlobalStateMismatch ty n /\ differs (os_globals own) (os_globals root) n) \/
  (exists n, e = OpInputMismatch ty n /\ differs (os_inputs own) (os_inputs root) n) \/
  (exists n, e = OpAssignmentsMismatch ty n /\ differs (os_assigns own) (os_assigns root) n) \/
  (exists n, e = OpRedeemMismatch ty n /\ In n (os_redeems own) /\ ~ In n (os_redeems root)) \/
  (exists n, e = OpValencyMismatch ty n /\ In n (os_valencies own) /\ ~ In n (os_valencies root)).
Proof.
  intros (_ & S1 & S2 & _ & S3 & _). unfold op_inheritance. rewrite !in_app_iff.
  rewrite !(unequal_In occ_eqb occ_eqb_true) by assumption. rewrite !missing_In. reflexivity.
Qed.

Lemma ops_inheritance_In (ty : N -> OpFullType) (err : N -> InheritanceFailure) root own e :
  msorted own ->
  In e (ops_inheritance ty err root own) <->
  (exists t, e = err t /\ mget t own <> None /\ mget t root = None) \/
  (exists t o r, mget t own = Some o /\ mget t root = Some r /\ In e (op_inheritance (ty t) o r)).
Proof.
  intros S. unfold ops_inheritance. rewrite in_flat_map. split.
  - intros [[t o] [I J]]. cbn in J. apply (In_mget _ _ _ S) in I. destruct (mget t root) as [r|] eqn:G.
    + right. exists t, o, r. auto.
    + destruct J as [<-|[]]. left. exists t. split; [reflexivity|]. split; [congruence|exact G].
  - intros [[t [-> [G R]]]|[t [o [r [G [R J]]]]]].
    + destruct (mget t own) as [o|] eqn:Go; [|congruence]. exists (t, o). split; [now apply mget_In|]. cbn. rewrite R. now left.
    + exists (t, o). split; [now apply mget_In|]. cbn. now rewrite R.
Qed.

Definition inheritance_errors own root :=
    unequal gschema_eqb (fs_globals root) GlobalStateMismatch (fs_globals own) ++
    unequal owned_eqb (fs_owned root) AssignmentTypeMismatch (fs_owned own) ++
    missing (fs_valencies root) ValencyTypeMismatch (fs_valencies own) ++
    op_inheritance FtGenesis (fs_genesis own) (fs_genesis root) ++
    ops_inheritance FtTransition TransitionTypeMismatch (fs_transitions root) (fs_transitions own) ++
    ops_inheritance FtExtension ExtensionTypeMismatch (fs_extensions root) (fs_extensions own).

Lemma check_errors_inheritance own root :
  check_inheritance own root = match inheritance_errors own root with [] => Ok tt | _ => Err (inheritance_errors own root) end.
Proof. reflexivity. Qed.

Lemma inheritance_In own root e : schema_sorted own ->
  In e (inheritance_errors own root) <-> inheritance_fails own root e.
Proof.
  intros (_ & S1 & S2 & _ & S3 & S4 & S4' & S5 & S5'). unfold inheritance_errors. rewrite !in_app_iff.
  rewrite (unequal_In gschema_eqb gschema_eqb_true) by assumption.
  rewrite (unequal_In owned_eqb owned_eqb_true) by assumption.
  rewrite missing_In. rewrite !ops_inheritance_In by assumption. split.
  - intros [H|[H|[H|[H|[H|H]]]]].
    + destruct H as [n [-> H]]. exact H.
    + destruct H as [n [-> H]]. exact H.
    + destruct H as [n [-> H]]. exact H.
    + apply op_inheritance_In in H; [|assumption].
      destruct H as [H|[H|[H|[H|H]]]]; destruct H as [n [-> H]]; (exists (fs_genesis own), (fs_genesis root); auto).
    + destruct H as [[t [-> H]]|[t [o [r [G [R H]]]]]]; [exact H|].
      apply op_inheritance_In in H; [|eauto].
      destruct H as [H|[H|[H|[H|H]]]]; destruct H as [n [-> H]]; (exists o, r; auto).
    + destruct H as [[t [-> H]]|[t [o [r [G [R H]]]]]]; [exact H|].
      apply op_inheritance_In in H; [|eauto].
      destruct H as [H|[H|[H|[H|H]]]]; destruct H as [n [-> H]]; (exists o, r; auto).
  - assert (Op : forall ty o r, schema_op own ty = Some o -> schema_op root ty = Some r -> In e (op_inheritance ty o r) ->
      (exists n, e = GlobalStateMismatch n /\ differs (fs_globals own) (fs_globals root) n) \/
      (exists n, e = AssignmentTypeMismatch n /\ differs (fs_owned own) (fs_owned root) n) \/
      (exists n, e = ValencyTypeMismatch n /\ In n (fs_valencies own) /\ ~ In n (fs_valencies root)) \/
      In e (op_inheritance FtGenesis (fs_genesis own) (fs_genesis root)) \/
      ((exists t, e = TransitionTypeMismatch t /\ mget t (fs_transitions own) <> None /\ mget t (fs_transitions root) = None) \/
       (exists t o r, mget t (fs_transitions own) = Some o /\ mget t (fs_transitions root) = Some r /\ In e (op_inheritance (FtTransition t) o r))) \/
      ((exists t, e = ExtensionTypeMismatch t /\ mget t (fs_extensions own) <> None /\ mget t (fs_extensions root) = None) \/
       (exists t o r, mget t (fs_extensions own) = Some o /\ mget t (fs_extensions root) = Some r /\ In e (op_inheritance (FtExtension t) o r)))).
    { intros [|t|t] o r G R I; cbn in G, R.
      - apply Some_inj in G. apply Some_inj in R. subst o r. right; right; right; left. exact I.
      - right; right; right; right; left. right. exists t, o, r. auto.
      - right; right; right; right; right. right. exists t, o, r. auto. }
    assert (Srt : forall ty o, schema_op own ty = Some o -> op_schema_sorted o).
    { intros [|t|t] o G; cbn in G; [apply Some_inj in G; now subst|eauto|eauto]. }
    intros H. destruct e; cbn in H; try (destruct H as [o [r [G [R H]]]]; apply (Op _ _ _ G R), op_inheritance_In; [now apply (Srt _ _ G)|]).
    + left. eauto.
    + right; left. eauto.
    + right; right; left. eauto.
    + right; right; right; right; left. left. eauto.
    + right; right; right; right; right. left. eauto.
    + left. eauto.
    + right; left. eauto.
    + right; right; right; left. eauto.
    + right; right; left. eauto.
    + right; right; right; right. eauto.
Qed.

Lemma nil_iff {A} (l : list A) : l = [] <-> forall x, ~ In x l.
Proof. split; [intros -> x []|]. destruct l as [|a l]; [reflexivity|]. intros H. destruct (H a). now left. Qed.

Lemma agrees_differs {V} (DV : forall a b : V, {a = b} + {a <> b}) (own root : omap N V) :
  agrees own root <-> forall n, ~ differs own root n.
Proof.
  split.
  - intros A n [v [G D]]. apply D. now apply A.
  - intros H n v G. destruct (mget n root) as [w|] eqn:R.
    + destruct (DV v w) as [->|Ne]; [reflexivity|]. destruct (H n). exists v. split; [exact G|congruence].
    + destruct (H n). exists v. split; [exact G|congruence].
Qed.
Lemma incl_not (a b : oset N) : incl a b <-> forall n, ~ (In n a /\ ~ In n b).
Proof.
  split; [intros I n [A B]; apply B, I, A|]. intros H n A. destruct (smem n b) eqn:E; [now apply smem_In|].
  apply smem_false in E. destruct (H n). auto.
Qed.
Definition occ_dec (a b : Occ) : {a = b} + {a <> b}.
Proof. decide equality; apply N.eq_dec. Defined.
Definition gs_dec (a b : GlobalSchema) : {a = b} + {a <> b}.
Proof. decide equality; apply N.eq_dec. Defined.
Definition owned_dec (a b : OwnedSchema) : {a = b} + {a <> b}.
Proof. decide equality; apply N.eq_dec. Defined.

Lemma inherits_iff own root : schema_inherits own root <-> forall e, ~ inheritance_fails own root e.
Proof.
  split.
  - intros (A & B & C & G & T & X) e F.
    assert (Ops : forall ty o r, schema_op own ty = Some o -> schema_op root ty = Some r -> op_inherits o r).
    { intros [|t|t] o r Go Gr; cbn in Go, Gr.
      - apply Some_inj in Go. apply Some_inj in Gr. now subst.
      - destruct (T t o Go) as [r' [Gr' H]]. rewrite Gr in Gr'. apply Some_inj in Gr'. now subst.
      - destruct (X t o Go) as [r' [Gr' H]]. rewrite Gr in Gr'. apply Some_inj in Gr'. now subst. }
    destruct e; cbn in F;
      try (destruct F as [o [r [Go [Gr F]]]]; destruct (Ops _ _ _ Go Gr) as (O1 & O2 & O3 & O4 & O5)).
    + apply (proj1 (agrees_differs gs_dec _ _) A _ F).
    + apply (proj1 (agrees_differs owned_dec _ _) B _ F).
    + apply (proj1 (incl_not _ _) C _ F).
    + destruct F as [F1 F2]. destruct (mget t (fs_transitions own)) as [o|] eqn:E; [|congruence].
      destruct (T t o E) as [r [Gr _]]. congruence.
    + destruct F as [F1 F2]. destruct (mget t (fs_extensions own)) as [o|] eqn:E; [|congruence].
      destruct (X t o E) as [r [Gr _]]. congruence.
    + apply (proj1 (agrees_differs occ_dec _ _) O1 _ F).
    + apply (proj1 (agrees_differs occ_dec _ _) O2 _ F).
    + apply (proj1 (incl_not _ _) O4 _ F).
    + apply (proj1 (agrees_differs occ_dec _ _) O3 _ F).
    + apply (proj1 (incl_not _ _) O5 _ F).
  - intros H.
    assert (Ops : forall ty o r, schema_op own ty = Some o -> schema_op root ty = Some r -> op_inherits o r).
    { intros ty o r Go Gr. split; [|split; [|split; [|split]]].
      - apply (agrees_differs occ_dec). intros n D. apply (H (OpGlobalStateMismatch ty n)). cbn. eauto.
      - apply (agrees_differs occ_dec). intros n D. apply (H (OpInputMismatch ty n)). cbn. eauto.
      - apply (agrees_differs occ_dec). intros n D. apply (H (OpAssignmentsMismatch ty n)). cbn. eauto.
      - apply incl_not. intros n D. apply (H (OpRedeemMismatch ty n)). cbn. eauto.
      - apply incl_not. intros n D. apply (H (OpValencyMismatch ty n)). cbn. eauto. }
    split; [|split; [|split; [|split; [|split]]]].
    + apply (agrees_differs gs_dec). intros n D. exact (H (GlobalStateMismatch n) D).
    + apply (agrees_differs owned_dec). intros n D. exact (H (AssignmentTypeMismatch n) D).
    + apply incl_not. intros n D. exact (H (ValencyTypeMismatch n) D).
    + exact (Ops FtGenesis _ _ eq_refl eq_refl).
    + intros t o Go. destruct (mget t (fs_transitions root)) as [r|] eqn:Gr.
      * exists r. split; [reflexivity|]. exact (Ops (FtTransition t) _ _ Go Gr).
      * destruct (H (TransitionTypeMismatch t)). split; [congruence|exact Gr].
    + intros t o Go. destruct (mget t (fs_extensions root)) as [r|] eqn:Gr.
      * exists r. split; [reflexivity|]. exact (Ops (FtExtension t) _ _ Go Gr).
      * destruct (H (ExtensionTypeMismatch t)). split; [congruence|exact Gr].
Qed.

(** ** Interface checks *)

Lemma absent_In {V} (m : omap N V) err names e :
  In e (absent m err names) <-> exists n, e = err n /\ In n names /\ mget n m = None.
Proof.
  unfold absent. rewrite in_flat_map. split.
  - intros [n [I J]]. destruct (mhas n m) eqn:Q; [destruct J|]. destruct J as [<-|[]]. exists n. apply mhas_not in Q. auto.
  - intros [n [-> [I J]]]. exists n. split; [exact I|]. apply mhas_not in J. rewrite J. now left.
Qed.
Lemma proc_globals_In f op m e : msorted m ->
  In e (proc_globals f op m) <->
  (exists n, e = UnknownGlobal op n /\ mget n m <> None /\ mget n (ff_globals f) = None) \/
  (exists n, e = MultipleGlobal op n /\
     exists c g, mget n m = Some c /\ mget n (ff_globals f) = Some g /\ 1 < oc_min c /\ gi_multiple g = false).
Proof.
  intros S. unfold proc_globals. rewrite in_flat_map. split.
  - intros [[n c] [I J]]. cbn in J. apply (In_mget _ _ _ S) in I. destruct (mget n (ff_globals f)) as [g|] eqn:G.
    + destruct ((1 <? oc_min c) && negb (gi_multiple g)) eqn:Q; [|destruct J]. destruct J as [<-|[]].
      apply andb_true_iff in Q. destruct Q as [Q1 Q2]. apply N.ltb_lt in Q1. apply negb_true_iff in Q2.
      right. exists n. split; [reflexivity|]. exists c, g. auto.
    + destruct J as [<-|[]]. left. exists n. split; [reflexivity|]. split; [congruence|exact G].
  - intros [[n [-> [A B]]]|[n [-> [c [g [A [B [C D]]]]]]]].
    + destruct (mget n m) as [c|] eqn:G; [|congruence]. exists (n, c). split; [now apply mget_In|]. cbn. rewrite B. now left.
    + exists (n, c). split; [now apply mget_In|]. cbn. rewrite B, D. apply N.ltb_lt in C. rewrite C. now left.
Qed.
Lemma proc_assigns_In f (multiple unknown : N -> IfaceInconsistency) m e : msorted m ->
  In e (proc_assigns f multiple unknown m) <->
  (exists n, e = unknown n /\ mget n m <> None /\ mget n (ff_assigns f) = None) \/
  (exists n, e = multiple n /\
     exists c g, mget n m = Some c /\ mget n (ff_assigns f) = Some g /\ 1 < oc_min c /\ ai_multiple g = false).
Proof.
  intros S. unfold proc_assigns. rewrite in_flat_map. split.
  - intros [[n c] [I J]]. cbn in J. apply (In_mget _ _ _ S) in I. destruct (mget n (ff_assigns f)) as [g|] eqn:G.
    + destruct ((1 <? oc_min c) && negb (ai_multiple g)) eqn:Q; [|destruct J]. destruct J as [<-|[]].
      apply andb_true_iff in Q. destruct Q as [Q1 Q2]. apply N.ltb_lt in Q1. apply negb_true_iff in Q2.
      right. exists n. split; [reflexivity|]. exists c, g. auto.
    + destruct J as [<-|[]]. left. exists n. split; [reflexivity|]. split; [congruence|exact G].
  - intros [[n [-> [A B]]]|[n [-> [c [g [A [B [C D]]]]]]]].
    + destruct (mget n m) as [c|] eqn:G; [|congruence]. exists (n, c). split; [now apply mget_In|]. cbn. rewrite B. now left.
    + exists (n, c). split; [now apply mget_In|]. cbn. rewrite B, D. apply N.ltb_lt in C. rewrite C. now left.
Qed.
Lemma proc_default_In op o e :
  In e (proc_default op o) <-> exists n, e = UnknownDefaultAssignment op n /\ oi_default o = Some n /\ mget n (oi_assigns o) = None.
Proof.
  unfold proc_default. destruct (oi_default o) as [n|]; [|split; [intros []|intros [n [_ [X _]]]; discriminate]].
  destruct (mhas n (oi_assigns o)) eqn:Q.
  - split; [intros []|]. intros [n' [_ [X Y]]]. apply Some_inj in X. subst n'. apply mhas_not in Y. congruence.
  - apply mhas_not in Q. split; [intros [<-|[]]; eauto|]. intros [n' [-> [X Y]]]. apply Some_inj in X. subst. now left.
Qed.

Definition iface_errors (now : Z) (is_date : Z -> bool) (f : FullIface) : list IfaceInconsistency :=
    (if is_date (ff_timestamp f) then if (now <? ff_timestamp f)%Z then [FutureTimestamp (ff_timestamp f)] else []
     else [InvalidTimestamp (ff_timestamp f)]) ++
    proc_op f GenesisOp (ff_genesis f) ++
    flat_map (fun p => let op := TransitionOp (fst p) in
                proc_op f op (snd p) ++
                proc_assigns f (MultipleInputs op) (UnknownInput op) (oi_inputs (snd p)) ++
                proc_default op (snd p)) (ff_transitions f) ++
    flat_map (fun p => let op := ExtensionOp (fst p) in
                proc_op f op (snd p) ++
                absent (ff_valencies f) (UnknownRedeem op) (oi_redeems (snd p)) ++
                proc_default op (snd p)) (ff_extensions f) ++
    flat_map (fun n => if mhas n (ff_extensions f) then [RepeatedOperationName n] else []) (mkeys (ff_transitions f)) ++
    (match ff_default f with
     | Some n => if mhas n (ff_transitions f) || mhas n (ff_extensions f) then [] else [UnknownDefaultOp n]
     | None => []
     end) ++
    flat_map (fun p => if gi_required (snd p) && negb (mhas (fst p) (oi_globals (ff_genesis f))) then [RequiredGlobalAbsent (fst p)] else []) (ff_globals f) ++
    flat_map (fun p => if ai_required (snd p) && negb (mhas (fst p) (oi_assigns (ff_genesis f))) then [RequiredAssignmentAbsent (fst p)] else []) (ff_assigns f) ++
    flat_map (fun p => if snd p && negb (smem (fst p) (oi_valencies (ff_genesis f))) then [RequiredValencyAbsent (fst p)] else []) (ff_valencies f).
Lemma iface_check_errors now is_date f :
  iface_check now is_date f = match iface_errors now is_date f with [] => Ok tt | _ => Err (iface_errors now is_date f) end.
Proof. reflexivity. Qed.

Lemma flat_one_In {A B} (f : A -> bool) (g : A -> B) (l : list A) e :
  In e (flat_map (fun a => if f a then [g a] else []) l) <-> exists a, In a l /\ f a = true /\ e = g a.
Proof.
  rewrite in_flat_map. split.
  - intros [a [I J]]. exists a. destruct (f a); [|destruct J]. destruct J as [<-|[]]. auto.
  - intros [a [I [F ->]]]. exists a. rewrite F. split; [exact I|now left].
Qed.

Section ProcOp.
  Context (now : Z) (is_date : Z -> bool) (f : FullIface) (S : iface_sorted f).

  Lemma iface_op_sorted op o : iface_op f op = Some o -> op_iface_sorted o.
  Proof.
    destruct S as (_ & _ & _ & _ & S0 & _ & S1 & _ & S2 & _).
    destruct op; cbn; intros E; [apply Some_inj in E; now subst|eauto|eauto].
  Qed.

  Lemma proc_op_fails op o e : iface_op f op = Some o -> In e (proc_op f op o) -> iface_fails now is_date f e.
  Proof.
    intros G. pose proof (iface_op_sorted _ _ G) as (_ & S1 & _ & S2 & _). unfold proc_op. rewrite !in_app_iff, !absent_In.
    rewrite proc_globals_In, proc_assigns_In by assumption.
    intros [[n [-> H]]|[[[n [-> H]]|[n [-> H]]]|[[[n [-> H]]|[n [-> H]]]|[[n [-> H]]|[n [-> H]]]]]]; exists o; auto.
  Qed.

  Lemma all_ops_In op o e : iface_op f op = Some o -> In e (proc_op f op o) -> In e (iface_errors now is_date f).
  Proof.
    intros G I. unfold iface_errors. destruct op as [|n|n]; cbn in G.
    - apply Some_inj in G. subst. apply in_or_app; right. apply in_or_app; left. exact I.
    - do 2 (apply in_or_app; right). apply in_or_app; left. apply in_flat_map. exists (n, o). split; [now apply mget_In|].
      cbn. apply in_or_app. now left.
    - do 3 (apply in_or_app; right). apply in_or_app; left. apply in_flat_map. exists (n, o). split; [now apply mget_In|].
      cbn. apply in_or_app. now left.
  Qed.

  Lemma iface_fails_In e : iface_fails now is_date f e -> In e (iface_errors now is_date f).
  Proof.
    pose proof S as (SM & SG & SA & SV & S0 & ST & ST' & SX & SX' & SE).
    destruct e; cbn; intros F.
    - destruct F as [-> F]. unfold iface_errors. rewrite F. now left.
    - destruct F as [-> [F1 F2]]. unfold iface_errors. rewrite F1. apply Z.ltb_lt in F2. rewrite F2. now left.
    - destruct F as [o [G F]]. apply (all_ops_In _ _ _ G). pose proof (iface_op_sorted _ _ G) as (_ & S1 & _ & S2 & _).
      unfold proc_op. rewrite !in_app_iff, !absent_In, proc_globals_In, proc_assigns_In by assumption.
      right; left; left. eauto.
    - destruct F as [o [G F]]. apply (all_ops_In _ _ _ G). pose proof (iface_op_sorted _ _ G) as (_ & S1 & _ & S2 & _).
      unfold proc_op. rewrite !in_app_iff, !absent_In. do 3 right; left. eauto.
    - destruct F as [K [o [G F]]]. destruct op as [|n'|n']; try destruct K. cbn in G.
      unfold iface_errors. do 3 (apply in_or_app; right). apply in_or_app; left. apply in_flat_map. exists (n', o).
      split; [now apply mget_In|]. cbn. rewrite !in_app_iff, !absent_In. right; left. eauto.
    - destruct F as [o [G F]]. apply (all_ops_In _ _ _ G). pose proof (iface_op_sorted _ _ G) as (_ & S1 & _ & S2 & _).
      unfold proc_op. rewrite !in_app_iff, !absent_In, proc_globals_In, proc_assigns_In by assumption.
      right; right; left; left. eauto.
    - destruct F as [K [o [G F]]]. destruct op as [|n'|n']; try destruct K. pose proof (iface_op_sorted _ _ G) as (_ & S1 & S3 & S2 & _).
      cbn in G. unfold iface_errors. do 2 (apply in_or_app; right). apply in_or_app; left. apply in_flat_map. exists (n', o).
      split; [now apply mget_In|]. cbn [fst snd]. apply in_or_app; right. apply in_or_app; left.
      apply proc_assigns_In; [exact S3|]. left. eauto.
    - destruct F as [o [G F]]. apply (all_ops_In _ _ _ G). pose proof (iface_op_sorted _ _ G) as (_ & S1 & _ & S2 & _).
      unfold proc_op. rewrite !in_app_iff, !absent_In. do 4 right. eauto.
    - destruct F as [K [o [G F]]]. unfold iface_errors. destruct op as [|n'|n']; [destruct K| |]; cbn in G.
      + do 2 (apply in_or_app; right). apply in_or_app; left. apply in_flat_map. exists (n', o).
        split; [now apply mget_In|]. cbn [fst snd]. do 2 (apply in_or_app; right). apply proc_default_In. eauto.
      + do 3 (apply in_or_app; right). apply in_or_app; left. apply in_flat_map. exists (n', o).
        split; [now apply mget_In|]. cbn [fst snd]. do 2 (apply in_or_app; right). apply proc_default_In. eauto.
    - destruct F as [D [F1 F2]]. unfold iface_errors. do 5 (apply in_or_app; right). apply in_or_app; left.
      rewrite D. apply mhas_not in F1. apply mhas_not in F2. rewrite F1, F2. now left.
    - destruct F as [o [G F]]. apply (all_ops_In _ _ _ G).
      unfold proc_op. rewrite !in_app_iff, !absent_In. left. eauto.
    - destruct F as [o [G F]]. apply (all_ops_In _ _ _ G). pose proof (iface_op_sorted _ _ G) as (_ & S1 & _ & S2 & _).
      unfold proc_op. rewrite !in_app_iff, !absent_In, proc_globals_In, proc_assigns_In by assumption.
      right; left; right. eauto.
    - destruct F as [o [G F]]. apply (all_ops_In _ _ _ G). pose proof (iface_op_sorted _ _ G) as (_ & S1 & _ & S2 & _).
      unfold proc_op. rewrite !in_app_iff, !absent_In, proc_globals_In, proc_assigns_In by assumption.
      right; right; left; right. eauto.
    - destruct F as [K [o [G F]]]. destruct op as [|n'|n']; try destruct K. pose proof (iface_op_sorted _ _ G) as (_ & S1 & S3 & S2 & _).
      cbn in G. unfold iface_errors. do 2 (apply in_or_app; right). apply in_or_app; left. apply in_flat_map. exists (n', o).
      split; [now apply mget_In|]. cbn [fst snd]. apply in_or_app; right. apply in_or_app; left.
      apply proc_assigns_In; [exact S3|]. right. eauto.
    - destruct F as [F1 F2]. unfold iface_errors. do 4 (apply in_or_app; right). apply in_or_app; left. apply flat_one_In.
      exists n. split; [now apply mget_none_key|]. split; [now apply mhas_iff|reflexivity].
    - destruct F as [[g [G R]] F]. unfold iface_errors. do 6 (apply in_or_app; right). apply in_or_app; left.
      apply (flat_one_In (fun p => _) (fun p => _)). exists (n, g). split; [now apply mget_In|]. cbn.
      apply mhas_not in F. rewrite R, F. auto.
    - destruct F as [[g [G R]] F]. unfold iface_errors. do 7 (apply in_or_app; right). apply in_or_app; left.
      apply (flat_one_In (fun p => _) (fun p => _)). exists (n, g). split; [now apply mget_In|]. cbn.
      apply mhas_not in F. rewrite R, F. auto.
    - destruct F as [G F]. unfold iface_errors. do 8 (apply in_or_app; right).
      apply (flat_one_In (fun p => _) (fun p => _)). exists (n, true). split; [now apply mget_In|]. cbn.
      apply smem_false in F. rewrite F. auto.
  Qed.

  Lemma iface_In_fails e : In e (iface_errors now is_date f) -> iface_fails now is_date f e.
  Proof.
    pose proof S as (SM & SG & SA & SV & S0 & ST & ST' & SX & SX' & SE).
    unfold iface_errors. rewrite !in_app_iff.
    intros [H|[H|[H|[H|[H|[H|[H|[H|H]]]]]]]].
    - destruct (is_date (ff_timestamp f)) eqn:D.
      + destruct (now <? ff_timestamp f)%Z eqn:L; [|destruct H]. apply Z.ltb_lt in L. destruct H as [<-|[]]. cbn. auto.
      + destruct H as [<-|[]]. cbn. auto.
    - exact (proc_op_fails GenesisOp _ _ eq_refl H).
    - apply in_flat_map in H. destruct H as [[n o] [I H]]. cbn [fst snd] in H. apply (In_mget _ _ _ ST) in I.
      pose proof (ST' _ _ I) as (_ & S1 & S3 & S2 & _).
      rewrite !in_app_iff in H. destruct H as [H|[H|H]].
      + exact (proc_op_fails (TransitionOp n) _ _ I H).
      + apply proc_assigns_In in H; [|exact S3]. destruct H as [[n' [-> H]]|[n' [-> H]]]; split; try exact Logic.I; exists o; auto.
      + apply proc_default_In in H. destruct H as [n' [-> H]]. split; [exact Logic.I|]. exists o. auto.
    - apply in_flat_map in H. destruct H as [[n o] [I H]]. cbn [fst snd] in H. apply (In_mget _ _ _ SX) in I.
      rewrite !in_app_iff in H. destruct H as [H|[H|H]].
      + exact (proc_op_fails (ExtensionOp n) _ _ I H).
      + apply absent_In in H. destruct H as [n' [-> H]]. split; [exact Logic.I|]. exists o; auto.
      + apply proc_default_In in H. destruct H as [n' [-> H]]. split; [exact Logic.I|]. exists o. auto.
    - apply flat_one_In in H. destruct H as [n [I [H ->]]]. cbn. split; [now apply mget_none_key|now apply mhas_iff].
    - destruct (ff_default f) as [n|] eqn:D; [|destruct H].
      destruct (mhas n (ff_transitions f) || mhas n (ff_extensions f)) eqn:Q; [destruct H|]. destruct H as [<-|[]].
      apply orb_false_iff in Q. cbn. destruct Q as [Q1 Q2]. apply mhas_not in Q1. apply mhas_not in Q2. auto.
    - apply (flat_one_In (fun p => _) (fun p => _)) in H. destruct H as [[n g] [I [H ->]]]. cbn in *. apply (In_mget _ _ _ SG) in I.
      apply andb_true_iff in H. destruct H as [H1 H2]. apply negb_true_iff, mhas_not in H2. eauto.
    - apply (flat_one_In (fun p => _) (fun p => _)) in H. destruct H as [[n g] [I [H ->]]]. cbn in *. apply (In_mget _ _ _ SA) in I.
      apply andb_true_iff in H. destruct H as [H1 H2]. apply negb_true_iff, mhas_not in H2. eauto.
    - apply (flat_one_In (fun p => _) (fun p => _)) in H. destruct H as [[n g] [I [H ->]]]. cbn in *. apply (In_mget _ _ _ SV) in I.
      apply andb_true_iff in H. destruct H as [H1 H2]. apply negb_true_iff, smem_false in H2. subst g. auto.
  Qed.
End ProcOp.

Lemma consistent_iff now is_date f : iface_consistent now is_date f <-> forall e, ~ iface_fails now is_date f e.
Proof.
  split.
  - intros (D & T & O & R1 & R2 & R3 & R4 & R5) e F. destruct e; cbn in F.
    + destruct F as [-> F]. congruence.
    + destruct F as [-> [_ F]]. lia.
    + destruct F as [o [G [F1 F2]]]. destruct (O op o G) as (O1 & O2 & O3 & O4 & O5 & O6 & O7 & O8).
      destruct (mget n (oi_globals o)) as [c|] eqn:E; [|congruence]. destruct (O2 n c E) as [g [Gg _]]. congruence.
    + destruct F as [o [G [F1 F2]]]. destruct (O op o G) as (O1 & O2 & O3 & O4 & O5 & O6 & O7 & O8). exact (O6 n F1 F2).
    + destruct F as [K [o [G [F1 F2]]]]. destruct (O op o G) as (O1 & O2 & O3 & O4 & O5 & O6 & O7 & O8). exact (O5 K n F1 F2).
    + destruct F as [o [G [F1 F2]]]. destruct (O op o G) as (O1 & O2 & O3 & O4 & O5 & O6 & O7 & O8).
      destruct (mget n (oi_assigns o)) as [c|] eqn:E; [|congruence]. destruct (O3 n c E) as [g [Gg _]]. congruence.
    + destruct F as [K [o [G [F1 F2]]]]. destruct (O op o G) as (O1 & O2 & O3 & O4 & O5 & O6 & O7 & O8).
      destruct (mget n (oi_inputs o)) as [c|] eqn:E; [|congruence]. destruct (O4 K n c E) as [g [Gg _]]. congruence.
    + destruct F as [o [G [F1 F2]]]. destruct (O op o G) as (O1 & O2 & O3 & O4 & O5 & O6 & O7 & O8). exact (O7 n F1 F2).
    + destruct F as [K [o [G [F1 F2]]]]. destruct (O op o G) as (O1 & O2 & O3 & O4 & O5 & O6 & O7 & O8). exact (O8 K n F1 F2).
    + destruct F as [F1 [F2 F3]]. destruct (R2 n F1); auto.
    + destruct F as [o [G [F1 F2]]]. destruct (O op o G) as (O1 & O2 & O3 & O4 & O5 & O6 & O7 & O8). exact (O1 n F1 F2).
    + destruct F as [o [G [c [g [F1 [F2 [F3 F4]]]]]]]. destruct (O op o G) as (O1 & O2 & O3 & O4 & O5 & O6 & O7 & O8).
      destruct (O2 n c F1) as [g' [Gg L]]. rewrite F2 in Gg. apply Some_inj in Gg. subst g'. specialize (L F4). lia.
    + destruct F as [o [G [c [g [F1 [F2 [F3 F4]]]]]]]. destruct (O op o G) as (O1 & O2 & O3 & O4 & O5 & O6 & O7 & O8).
      destruct (O3 n c F1) as [g' [Gg L]]. rewrite F2 in Gg. apply Some_inj in Gg. subst g'. specialize (L F4). lia.
    + destruct F as [K [o [G [c [g [F1 [F2 [F3 F4]]]]]]]]. destruct (O op o G) as (O1 & O2 & O3 & O4 & O5 & O6 & O7 & O8).
      destruct (O4 K n c F1) as [g' [Gg L]]. rewrite F2 in Gg. apply Some_inj in Gg. subst g'. specialize (L F4). lia.
    + destruct F as [F1 F2]. apply F2, R1, F1.
    + destruct F as [[g [F1 F2]] F3]. exact (R3 n g F1 F2 F3).
    + destruct F as [[g [F1 F2]] F3]. exact (R4 n g F1 F2 F3).
    + destruct F as [F1 F2]. exact (F2 (R5 n F1)).
  - intros H.
    assert (Le : forall c b, ~ (1 < oc_min c /\ b = false) -> b = false -> oc_min c <= 1).
    { intros c b X Y. destruct (N.le_gt_cases (oc_min c) 1); [assumption|]. destruct X. auto. }
    split. { destruct (is_date (ff_timestamp f)) eqn:D; [reflexivity|]. destruct (H (InvalidTimestamp (ff_timestamp f))). cbn. auto. }
    split. { destruct (Z.le_gt_cases (ff_timestamp f) now); [assumption|].
             destruct (is_date (ff_timestamp f)) eqn:D; [destruct (H (FutureTimestamp (ff_timestamp f))); cbn; auto|].
             destruct (H (InvalidTimestamp (ff_timestamp f))). cbn. auto. }
    split.
    { intros op o G.
      split. { intros n I E. apply (H (UnknownMetadata op n)). exists o. auto. }
      split. { intros n c E. destruct (mget n (ff_globals f)) as [g|] eqn:Gg.
               - exists g. split; [reflexivity|]. apply Le. intros [L M]. apply (H (MultipleGlobal op n)). exists o. split; [exact G|]. exists c, g. auto.
               - destruct (H (UnknownGlobal op n)). exists o. split; [exact G|]. split; [congruence|exact Gg]. }
      split. { intros n c E. destruct (mget n (ff_assigns f)) as [g|] eqn:Gg.
               - exists g. split; [reflexivity|]. apply Le. intros [L M]. apply (H (MultipleAssignment op n)). exists o. split; [exact G|]. exists c, g. auto.
               - destruct (H (UnknownAssignment op n)). exists o. split; [exact G|]. split; [congruence|exact Gg]. }
      split. { intros K n c E. destruct (mget n (ff_assigns f)) as [g|] eqn:Gg.
               - exists g. split; [reflexivity|]. apply Le. intros [L M]. apply (H (MultipleInputs op n)). split; [exact K|]. exists o. split; [exact G|]. exists c, g. auto.
               - destruct (H (UnknownInput op n)). split; [exact K|]. exists o. split; [exact G|]. split; [congruence|exact Gg]. }
      split. { intros K n I E. apply (H (UnknownRedeem op n)). split; [exact K|]. exists o. auto. }
      split. { intros n I E. apply (H (UnknownValency op n)). exists o. auto. }
      split. { intros n I E. apply (H (UnknownError op n)). exists o. auto. }
      intros K n I E. apply (H (UnknownDefaultAssignment op n)). split; [exact K|]. exists o. auto. }
    split. { intros n I. destruct (mget n (ff_extensions f)) eqn:E; [|reflexivity].
             destruct (H (RepeatedOperationName n)). split; [exact I|congruence]. }
    split. { intros n I. destruct (mget n (ff_transitions f)) eqn:E1; [left; congruence|].
             destruct (mget n (ff_extensions f)) eqn:E2; [right; congruence|]. destruct (H (UnknownDefaultOp n)). cbn. auto. }
    split. { intros n g G R E. apply (H (RequiredGlobalAbsent n)). split; eauto. }
    split. { intros n g G R E. apply (H (RequiredAssignmentAbsent n)). split; eauto. }
    intros n G. destruct (smem n (oi_valencies (ff_genesis f))) eqn:E; [now apply smem_In|]. apply smem_false in E.
    destruct (H (RequiredValencyAbsent n)). split; assumption.
Qed.
