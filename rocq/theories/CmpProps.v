(** * C59: equality, order and hashes of containers agree *)
From Verif Require Import Base Core ContainerModel PIndexModel StateModel IfaceModel CmpModel CmpSpec.
Local Open Scope N_scope.

(** Comparison by a key is coherent. *)
Lemma by_key {A K} `{OrdKey K} (f : A -> K) (eq : A -> A -> bool) (c : A -> A -> comparison) :
  (forall a b, eq a b = keqb (f a) (f b)) -> (forall a b, c a b = cmp (f a) (f b)) -> equivalence eq /\ ordered eq c.
Proof.
  intros He Hc. split.
  - split; [|split]; intros *; rewrite !He, ?keqb_eq; congruence.
  - split; [|split; [|split]]; intros *.
    + rewrite He, Hc, keqb_eq. apply cmp_eq.
    + rewrite !Hc. apply cmp_opp.
    + rewrite !Hc. apply cmp_lt_trans.
    + rewrite He, keqb_eq, !Hc. intros ->. reflexivity.
Qed.
Lemma keqb_N (a b : N) : (a =? b) = keqb a b.
Proof. destruct (N.eqb_spec a b) as [->|]; symmetry; [apply keqb_refl|apply keqb_neq; assumption]. Qed.

(** Witnesses are equal exactly if their ids are, and ordered by them. *)
Theorem C59_witnesses : (equivalence xw_eq /\ ordered xw_eq xw_cmp) /\
  (forall a b, xw_eq a b = true <-> witness_id a = witness_id b).
Proof.
  assert (E : forall a b, xw_eq a b = keqb (xw_layer a, pw_txid (xw_pub a)) (xw_layer b, pw_txid (xw_pub b))).
  { intros a b. unfold xw_eq, pw_eq. rewrite keqb_N. destruct (keqb_spec (xw_layer a, pw_txid (xw_pub a)) (xw_layer b, pw_txid (xw_pub b))) as [X|X].
    - injection X as -> ->. rewrite !keqb_refl. reflexivity.
    - destruct (keqb_spec (xw_layer a) (xw_layer b)) as [Y|Y]; [|reflexivity]. cbn [andb].
      destruct (keqb_spec (pw_txid (xw_pub a)) (pw_txid (xw_pub b))) as [Z|Z]; [|reflexivity]. congruence. }
  split.
  - apply (by_key (fun a => (xw_layer a, pw_txid (xw_pub a)))); [exact E|]. intros a b. unfold xw_cmp, pw_cmp. cbn [cmp OrdProd]. unfold prod_cmp, cmp_then. cbn [fst snd cmp OrdN]. destruct (cmp (xw_layer a) (xw_layer b)); reflexivity.
  - intros a b. rewrite E, keqb_eq. unfold witness_id. split; intros X; injection X as -> ->; reflexivity.
Qed.
(** So are bundles under a witness: whatever bundles they carry. *)
Theorem C59_witness_bundles : (equivalence wb_eq /\ ordered wb_eq wb_cmp) /\
  (forall a b, wb_eq a b = true <-> wb_id a = wb_id b).
Proof.
  destruct C59_witnesses as [[(R & S & T) (O1 & O2 & O3 & O4)] W]. unfold wb_eq, wb_cmp, wb_id. split; [|intros a b; apply W].
  split.
  - split; [|split]; intros *; [apply R|apply S|apply T].
  - split; [|split; [|split]]; intros *; [apply O1|apply O2|apply O3|apply O4].
Qed.
Theorem C59_transitions : equivalence ti_eq /\ ordered ti_eq ti_cmp /\ hashed ti_eq ti_fed.
Proof.
  split; [|split].
  - apply (by_key ti_id ti_eq ti_cmp); intros a b; [apply keqb_N|reflexivity].
  - apply (by_key ti_id ti_eq ti_cmp); intros a b; [apply keqb_N|reflexivity].
  - intros a b E. apply N.eqb_eq in E. exact E.
Qed.
Theorem C59_ifaces : forall id, equivalence (if_eq id) /\ ordered (if_eq id) (if_cmp id) /\ hashed (if_eq id) (if_fed id) /\
  (forall a b, binds id a b -> if_eq id a b = true <-> a = b).
Proof.
  intros id. split; [|split; [|split]].
  - apply (by_key id (if_eq id) (if_cmp id)); intros a b; [apply keqb_N|reflexivity].
  - apply (by_key id (if_eq id) (if_cmp id)); intros a b; [apply keqb_N|reflexivity].
  - intros a b E. apply N.eqb_eq in E. exact E.
  - intros a b B. unfold if_eq. rewrite N.eqb_eq. split; [apply B|intros ->; reflexivity].
Qed.

(** Allocations are equal and ordered by output and seal ... *)
Theorem C59_allocations_partial : equivalence oa_eq /\ ordered oa_eq oa_cmp /\
  (forall a b, oa_eq a b = true <-> oa_opout a = oa_opout b /\ oa_seal a = oa_seal b).
Proof.
  assert (S : forall a b, oa_eq a b = true <-> oa_opout a = oa_opout b /\ oa_seal a = oa_seal b).
  { intros a b. unfold oa_eq. rewrite andb_true_iff, !keqb_eq. reflexivity. }
  assert (E : forall a b, oa_eq a b = keqb (oa_opout a, oa_seal a) (oa_opout b, oa_seal b)).
  { intros a b. destruct (keqb_spec (oa_opout a, oa_seal a) (oa_opout b, oa_seal b)) as [X|X].
    - apply S. injection X as -> ->. auto.
    - destruct (oa_eq a b) eqn:Y; [|reflexivity]. apply S in Y as [Y1 Y2]. congruence. }
  assert (C : forall a b, oa_cmp a b = cmp (oa_opout a, oa_seal a) (oa_opout b, oa_seal b)).
  { intros a b. unfold oa_cmp. destruct (oa_eq a b) eqn:Y; [|cbn [cmp OrdProd]; unfold prod_cmp, cmp_then; cbn [fst snd]; destruct (cmp (oa_opout a) (oa_opout b)); reflexivity]. rewrite E, keqb_eq in Y. symmetry. apply cmp_eq. exact Y. }
  pose proof (by_key _ _ _ E C) as [B1 B2]. auto.
Qed.
(** ... but hashed with state and witness: equal ones may hash differently. *)
Definition cmp_alloc (w : option WitnessId) : OutAssign :=
  {| oa_opout := {| oo_op := 1; oo_ty := 2; oo_no := 0 |};
     oa_seal := {| os_layer := Bitcoin; os_method := TapretFirst; os_txid := 5; os_vout := 0 |};
     oa_state := RAmount 7 1 1; oa_witness := w |}.
Theorem C59_allocations_refuted : ~ hashed oa_eq oa_fed.
Proof.
  intros H. specialize (H (cmp_alloc None) (cmp_alloc (Some {| w_layer := Bitcoin; w_txid := 9 |})) eq_refl). discriminate H.
Qed.

(** Named fields of an implementation are called equal when id or name agree: this is no
    equivalence, does not agree with the order, and different implementations are equal. *)
Theorem C59_names_refuted : ~ equivalence nf_eq /\ ~ ordered nf_eq nf_cmp /\
  exists a b, a <> b /\ impl_eq a b = true /\ type_of (fm_assigns a) 1 = Some 4 /\ type_of (fm_assigns b) 1 = None.
Proof.
  split; [|split].
  - intros (_ & _ & T). specialize (T (1, 1) (1, 2) (3, 2) eq_refl eq_refl). discriminate T.
  - intros (O & _). specialize (O (1, 1) (1, 2)). destruct O as [_ O]. specialize (O eq_refl). discriminate O.
  - pose (i := fun l => {| fm_schema := 5; fm_iface := 1; fm_timestamp := 0%Z; fm_metadata := []; fm_globals := []; fm_assigns := l;
                fm_valencies := []; fm_transitions := []; fm_extensions := []; fm_errors := [] |}).
    exists (i [(4, 1)]), (i [(4, 2)]). split; [intros E; discriminate E|]. repeat split.
Qed.
(** Among fields with different ids and names they are coherent. *)
Theorem C59_names_partial : forall l : list (N * N),
  (forall a b, In a l -> In b l -> fst a = fst b <-> snd a = snd b) ->
  (forall a b, In a l -> In b l -> nf_eq a b = true <-> a = b) /\ (forall a b, In a l -> In b l -> nf_cmp a b = Eq <-> nf_eq a b = true).
Proof.
  intros l H.
  assert (E : forall a b, In a l -> In b l -> nf_eq a b = true <-> a = b).
  { intros [i n] [j m] Ha Hb. specialize (H _ _ Ha Hb). cbn in H. unfold nf_eq. cbn. rewrite orb_true_iff, !N.eqb_eq. split.
    - intros [->| ->]; [rewrite (proj1 H eq_refl)|rewrite (proj2 H eq_refl)]; reflexivity.
    - intros X. injection X as -> ->. auto. }
  split; [exact E|]. intros a b Ha Hb. rewrite (E a b Ha Hb). destruct a as [i n], b as [j m]. unfold nf_cmp. cbn.
  destruct (N.compare_spec i j) as [->|X|X].
  - rewrite N.compare_eq_iff. split; [intros ->; reflexivity|intros X; injection X as ->; reflexivity].
  - split; [discriminate|]. intros Y. injection Y as -> ->. lia.
  - split; [discriminate|]. intros Y. injection Y as -> ->. lia.
Qed.
(** Implementations whose tables agree on which name goes with which id are equal exactly if
    they are the same. *)
Definition agree (l m : list (N * N)) : Prop := forall a b, In a (l ++ m) -> In b (l ++ m) -> fst a = fst b <-> snd a = snd b.
Lemma tables_same l : forall m, agree l m -> table_eq l m = true <-> l = m.
Proof.
  induction l as [|a l IH]; intros [|b m] A; cbn [table_eq]; try (split; [discriminate|intros X; discriminate X]); [tauto|].
  rewrite andb_true_iff, IH.
  - rewrite (proj1 (C59_names_partial _ A) a b); [|left; reflexivity|apply in_or_app; right; left; reflexivity].
    split; [intros [-> ->]; reflexivity|intros X; injection X as -> ->; auto].
  - intros x y Hx Hy. apply A; rewrite in_app_iff in *; cbn [In]; tauto.
Qed.
Theorem C59_impls_partial : forall a b,
  agree (fm_metadata a) (fm_metadata b) -> agree (fm_globals a) (fm_globals b) -> agree (fm_assigns a) (fm_assigns b) ->
  agree (fm_valencies a) (fm_valencies b) -> agree (fm_transitions a) (fm_transitions b) ->
  agree (fm_extensions a) (fm_extensions b) -> agree (fm_errors a) (fm_errors b) ->
  impl_eq a b = true <-> a = b.
Proof.
  intros a b A1 A2 A3 A4 A5 A6 A7. unfold impl_eq. rewrite !andb_true_iff, !N.eqb_eq, Z.eqb_eq, !tables_same by assumption.
  destruct a, b; cbn. split; [intros X; intuition congruence|intros X; injection X; intros; subst; tauto].
Qed.
Example C59_impls_nonvacuous : agree [(1, 10); (2, 20)] [(2, 20); (3, 30)] /\ ~ agree [(1, 10)] [(1, 20)].
Proof.
  split; [intros a b Ha Hb; cbn in *; intuition (subst; cbn in *; congruence)|].
  intros A. specialize (A (1, 10) (1, 20) (or_introl eq_refl) (or_intror (or_introl eq_refl))). cbn in A. destruct A as [A _].
  specialize (A eq_refl). discriminate A.
Qed.
Example C59_nonvacuous :
  xw_eq {| xw_layer := Bitcoin; xw_pub := PwTxid 4 |} {| xw_layer := Bitcoin; xw_pub := PwTx {| tx_txid := 4; tx_body := 9 |} |} = true /\
  xw_cmp {| xw_layer := Bitcoin; xw_pub := PwTxid 4 |} {| xw_layer := Liquid; xw_pub := PwTxid 4 |} = Lt /\
  oa_eq (cmp_alloc None) (cmp_alloc (Some {| w_layer := Bitcoin; w_txid := 9 |})) = true /\
  (let l := [(1, 10); (2, 20)] in forall a b, In a l -> In b l -> fst a = fst b <-> snd a = snd b).
Proof.
  repeat split; cbn in *; intuition (subst; cbn in *; congruence).
Qed.

Print Assumptions C59_witnesses.
Print Assumptions C59_witness_bundles.
Print Assumptions C59_transitions.
Print Assumptions C59_ifaces.
Print Assumptions C59_allocations_partial.
Print Assumptions C59_allocations_refuted.
Print Assumptions C59_names_refuted.
Print Assumptions C59_names_partial.
Print Assumptions C59_impls_partial.
