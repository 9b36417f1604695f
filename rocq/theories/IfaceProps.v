(** * C39-C43: schema inheritance, interfaces and implementations *)
From Verif Require Import Base IfaceModel IfaceSpec IfaceProofs IfaceExt IfaceRefine.
Local Open Scope N_scope.

(** ** C39: inheritance of schemata *)

(** The check succeeds exactly if every type, operation and occurrence requirement of the
    schema is present and equal in the root.  Partial: metadata is not compared, see
    [C39_metadata_refuted]. *)
Theorem C39_accepts_iff_partial own root : schema_sorted own ->
  (check_inheritance own root = Ok tt <-> schema_inherits own root).
Proof.
  intros S. rewrite check_errors_inheritance, inherits_iff.
  assert (X : (forall e, ~ inheritance_fails own root e) <-> inheritance_errors own root = []).
  { rewrite nil_iff. split; intros H e F; apply (H e), (inheritance_In own root e S), F. }
  rewrite X. destruct (inheritance_errors own root); split; congruence.
Qed.
Print Assumptions C39_accepts_iff_partial.

(** When it fails, it reports exactly what is not there or differs. *)
Theorem C39_reports own root l : schema_sorted own -> check_inheritance own root = Err l ->
  l <> [] /\ forall e, In e l <-> inheritance_fails own root e.
Proof.
  intros S E. rewrite check_errors_inheritance in E.
  assert (X : l = inheritance_errors own root /\ l <> []).
  { destruct (inheritance_errors own root); [discriminate|]. injection E as <-. split; [reflexivity|discriminate]. }
  destruct X as [-> Ne]. split; [exact Ne|]. intros e. now apply inheritance_In.
Qed.
Print Assumptions C39_reports.

Lemma agrees_trans {V} (a b c : omap N V) : agrees a b -> agrees b c -> agrees a c.
Proof. intros A B n v G. apply B, A, G. Qed.
Lemma op_inherits_refl o : op_inherits o o.
Proof. repeat split; intros ? **; assumption. Qed.
Lemma op_inherits_trans a b c : op_inherits a b -> op_inherits b c -> op_inherits a c.
Proof.
  intros (A1 & A2 & A3 & A4 & A5) (B1 & B2 & B3 & B4 & B5).
  repeat split; first [eapply agrees_trans; eassumption|eapply incl_tran; eassumption].
Qed.

Theorem C39_reflexive s : schema_sorted s -> check_inheritance s s = Ok tt.
Proof.
  intros S. apply C39_accepts_iff_partial; [exact S|].
  repeat split; try (intros ? **; assumption); intros t o G; exists o; split; try exact G; apply op_inherits_refl.
Qed.
Print Assumptions C39_reflexive.

Theorem C39_transitive a b c : schema_sorted a -> schema_sorted b ->
  check_inheritance a b = Ok tt -> check_inheritance b c = Ok tt -> check_inheritance a c = Ok tt.
Proof.
  intros Sa Sb Ca Cb. apply C39_accepts_iff_partial in Ca, Cb; try assumption. apply C39_accepts_iff_partial; [exact Sa|].
  destruct Ca as (A1 & A2 & A3 & A4 & A5 & A6), Cb as (B1 & B2 & B3 & B4 & B5 & B6).
  split; [eapply agrees_trans; eassumption|]. split; [eapply agrees_trans; eassumption|].
  split; [eapply incl_tran; eassumption|]. split; [eapply op_inherits_trans; eassumption|]. split.
  - intros t o G. destruct (A5 t o G) as [r [Gr R]]. destruct (B5 t r Gr) as [q [Gq Q]]. exists q. split; [exact Gq|].
    eapply op_inherits_trans; eassumption.
  - intros t o G. destruct (A6 t o G) as [r [Gr R]]. destruct (B6 t r Gr) as [q [Gq Q]]. exists q. split; [exact Gq|].
    eapply op_inherits_trans; eassumption.
Qed.
Print Assumptions C39_transitive.

(** Two schemata which inherit from each other have the same state types and the same
    operations, as far as compared. *)
Theorem C39_antisymmetric a b : schema_sorted a -> schema_sorted b ->
  check_inheritance a b = Ok tt -> check_inheritance b a = Ok tt ->
  (forall t, mget t (fs_globals a) = mget t (fs_globals b)) /\ (forall t, mget t (fs_owned a) = mget t (fs_owned b)) /\
  (forall t, In t (fs_valencies a) <-> In t (fs_valencies b)) /\
  forall ty, match schema_op a ty, schema_op b ty with
             | Some o, Some r =>
                 (forall t, mget t (os_globals o) = mget t (os_globals r)) /\ (forall t, mget t (os_inputs o) = mget t (os_inputs r)) /\
                 (forall t, mget t (os_assigns o) = mget t (os_assigns r)) /\ (forall t, In t (os_redeems o) <-> In t (os_redeems r)) /\
                 (forall t, In t (os_valencies o) <-> In t (os_valencies r))
             | None, None => True
             | _, _ => False
             end.
Proof.
  intros Sa Sb Ca Cb. apply C39_accepts_iff_partial in Ca, Cb; try assumption.
  destruct Ca as (A1 & A2 & A3 & A4 & A5 & A6), Cb as (B1 & B2 & B3 & B4 & B5 & B6).
  assert (Eq : forall V (m n : omap N V), agrees m n -> agrees n m -> forall t, mget t m = mget t n).
  { intros V m n X Y t. destruct (mget t m) as [v|] eqn:G; [symmetry; now apply X|].
    destruct (mget t n) as [w|] eqn:G'; [|reflexivity]. rewrite (Y t w G') in G. discriminate. }
  assert (Op : forall o r, op_inherits o r -> op_inherits r o ->
                 (forall t, mget t (os_globals o) = mget t (os_globals r)) /\ (forall t, mget t (os_inputs o) = mget t (os_inputs r)) /\
                 (forall t, mget t (os_assigns o) = mget t (os_assigns r)) /\ (forall t, In t (os_redeems o) <-> In t (os_redeems r)) /\
                 (forall t, In t (os_valencies o) <-> In t (os_valencies r))).
  { intros o r (X1 & X2 & X3 & X4 & X5) (Y1 & Y2 & Y3 & Y4 & Y5).
    split; [now apply Eq|]. split; [now apply Eq|]. split; [now apply Eq|]. split; intros t; split; auto. }
  split; [now apply Eq|]. split; [now apply Eq|]. split; [split; auto|].
  intros [|t|t]; cbn.
  - now apply Op.
  - destruct (mget t (fs_transitions a)) as [o|] eqn:G.
    + destruct (A5 t o G) as [r [Gr R]]. rewrite Gr. destruct (B5 t r Gr) as [o' [G' R']]. rewrite G in G'. apply Some_inj in G'. subst o'. now apply Op.
    + destruct (mget t (fs_transitions b)) as [r|] eqn:Gr; [|exact I]. destruct (B5 t r Gr) as [o' [G' _]]. congruence.
  - destruct (mget t (fs_extensions a)) as [o|] eqn:G.
    + destruct (A6 t o G) as [r [Gr R]]. rewrite Gr. destruct (B6 t r Gr) as [o' [G' R']]. rewrite G in G'. apply Some_inj in G'. subst o'. now apply Op.
    + destruct (mget t (fs_extensions b)) as [r|] eqn:Gr; [|exact I]. destruct (B6 t r Gr) as [o' [G' _]]. congruence.
Qed.
Print Assumptions C39_antisymmetric.

(** A schema with a ticker and an asset, which can be transferred *)
Definition sx_once : Occ := {| oc_min := 1; oc_max := 1 |}.
Definition sx_many : Occ := {| oc_min := 1; oc_max := 100 |}.
Definition sx_genesis : OpSchema :=
  {| os_metadata := []; os_globals := [(1, sx_once)]; os_inputs := []; os_redeems := []; os_assigns := [(10, sx_many)]; os_valencies := [] |}.
Definition sx_transfer : OpSchema :=
  {| os_metadata := []; os_globals := []; os_inputs := [(10, sx_many)]; os_redeems := []; os_assigns := [(10, sx_many)]; os_valencies := [] |}.
Definition sx_schema : FullSchema :=
  {| fs_meta := []; fs_globals := [(1, {| gs_sem := 7; gs_max := 1 |})]; fs_owned := [(10, OsFungible)]; fs_valencies := [];
     fs_genesis := sx_genesis; fs_transitions := [(20, sx_transfer)]; fs_extensions := [] |}.
(** ... a root with one more type and operation, ... *)
Definition sx_root : FullSchema :=
  {| fs_meta := [(3, 9)]; fs_globals := [(1, {| gs_sem := 7; gs_max := 1 |}); (2, {| gs_sem := 8; gs_max := 5 |})];
     fs_owned := [(10, OsFungible); (11, OsDeclarative)]; fs_valencies := [5];
     fs_genesis := {| os_metadata := [3]; os_globals := [(1, sx_once); (2, sx_many)]; os_inputs := []; os_redeems := [];
                      os_assigns := [(10, sx_many); (11, sx_once)]; os_valencies := [5] |};
     fs_transitions := [(20, sx_transfer); (21, sx_transfer)]; fs_extensions := [] |}.
Ltac srt :=
  unfold schema_sorted, op_schema_sorted, iface_sorted, op_iface_sorted;
  repeat match goal with |- _ /\ _ => split end;
  try match goal with
  | |- forall n o, mget n _ = Some o -> _ =>
      let G := fresh in intros ? ? G; cbn in G;
      repeat (match type of G with context [keqb ?a ?b] => destruct (keqb a b) end); try discriminate;
      apply Some_inj in G; rewrite <- G; clear G;
      repeat match goal with |- _ /\ _ => split end
  end;
  cbn; repeat constructor.
Lemma sx_sorted : schema_sorted sx_schema.
Proof.
  srt.
Qed.
Example C39_nonvacuous : schema_sorted sx_schema /\ check_inheritance sx_schema sx_root = Ok tt /\
  check_inheritance sx_root sx_schema = Err [GlobalStateMismatch 2; AssignmentTypeMismatch 11; ValencyTypeMismatch 5;
    OpGlobalStateMismatch FtGenesis 2; OpAssignmentsMismatch FtGenesis 11; OpValencyMismatch FtGenesis 5; TransitionTypeMismatch 21].
Proof. split; [exact sx_sorted|]. split; reflexivity. Qed.

(** Metadata of the schema may be missing in the root, or have another type. *)
Theorem C39_metadata_refuted :
  ~ (forall own root, schema_sorted own -> check_inheritance own root = Ok tt -> schema_inherits_all own root).
Proof.
  intros H.
  pose (own := {| fs_meta := [(3, 9)]; fs_globals := fs_globals sx_schema; fs_owned := fs_owned sx_schema; fs_valencies := [];
     fs_genesis := {| os_metadata := [3]; os_globals := [(1, sx_once)]; os_inputs := []; os_redeems := []; os_assigns := [(10, sx_many)]; os_valencies := [] |};
     fs_transitions := [(20, sx_transfer)]; fs_extensions := [] |}).
  destruct (H own sx_schema) as (_ & _ & M).
  - srt.
  - reflexivity.
  - destruct (M 3). now left.
Qed.
Print Assumptions C39_metadata_refuted.

(** ** C40: extension of interfaces *)

(** What the child of two interfaces is, and what is required of them.  Partial: of what the
    property says, this does not give optional operations of the extension, nor that metadata
    keeps its type; see below. *)
Theorem C40_child_partial id_of own ext name r : iface_sorted ext -> extended id_of own ext name = Ok r ->
  joined id_of own ext name r /\ compatible own ext.
Proof. apply extended_ok. Qed.
Print Assumptions C40_child_partial.

(** If there is room, the extension succeeds exactly for compatible interfaces. *)
Theorem C40_succeeds_iff id_of own ext name : iface_sorted ext -> iface_fits own ext ->
  ((exists r, extended id_of own ext name = Ok r) <-> compatible own ext).
Proof.
  intros S F. split; [intros [r E]; exact (proj2 (extended_ok _ _ _ _ _ S E))|]. now apply extended_room.
Qed.
Print Assumptions C40_succeeds_iff.

(** The child has every field and operation of the first, and every field and required
    operation of the second, with compatible types and no requirement weakened. *)
Theorem C40_stands_in_partial id_of own ext name r : iface_sorted ext -> extended id_of own ext name = Ok r ->
  refines r own /\ refines_required r ext.
Proof.
  intros S E. destruct (extended_ok _ _ _ _ _ S E) as [J C]. split; [eapply joined_own; eassumption|eapply joined_ext; eassumption].
Qed.
Print Assumptions C40_stands_in_partial.

(** Chains of any length: the child stands in for all, and lists all of them and all their
    ancestors. *)
Theorem C40_chain_partial id_of name f rest r : Forall iface_sorted rest -> inherit id_of name (f :: rest) = Ok r ->
  refines r f /\ (forall x, In x rest -> refines_required r x) /\
  incl (ff_inherits f) (ff_inherits r) /\ (rest <> [] -> In (id_of f) (ff_inherits r) /\ ff_name r = name) /\
  (forall x, In x rest -> incl (ff_inherits x) (ff_inherits r) /\ In (id_of x) (ff_inherits r)).
Proof. intros S E. exact (inherit_fold id_of name rest f r S E). Qed.
Print Assumptions C40_chain_partial.

(** Inheritance panics only for no interface at all. *)
Theorem C40_no_panic id_of name l : inherit id_of name l = Panic <-> l = [].
Proof.
  split; [|intros ->; reflexivity]. destruct l as [|f rest]; [reflexivity|]. intros E. cbn in E. exfalso. revert f E.
  induction rest as [|e rest IH]; intros f E; [discriminate|]. cbn in E.
  pose proof (extended_ends id_of f e name). destruct (extended id_of f e name); [exact (IH _ E)|discriminate|congruence].
Qed.
Print Assumptions C40_no_panic.

(** Two interfaces: a named asset, and a fungible one which can be burned *)
Definition ix_op (m : Modifier) (opt : bool) (globals inputs assigns : omap N Occ) (d : option N) : OpIface :=
  {| oi_modifier := m; oi_optional := opt; oi_metadata := []; oi_globals := globals; oi_inputs := inputs; oi_assigns := assigns;
     oi_redeems := []; oi_valencies := []; oi_errors := []; oi_default := d |}.
Definition ix_named : FullIface :=
  {| ff_name := 1; ff_inherits := [100]; ff_timestamp := 5; ff_metadata := [(3, 9)];
     ff_globals := [(1, {| gi_sem := None; gi_required := true; gi_multiple := false |})];
     ff_assigns := [(10, {| ai_state := OiAnyData; ai_public := false; ai_required := true; ai_multiple := true |})];
     ff_valencies := []; ff_genesis := ix_op MAbstract false [(1, sx_once)] [] [(10, sx_once)] None;
     ff_transitions := [(20, ix_op MAbstract false [] [(10, sx_once)] [(10, sx_once)] None)]; ff_extensions := [];
     ff_default := Some 20; ff_errors := [] |}.
Definition ix_burnable : FullIface :=
  {| ff_name := 2; ff_inherits := [200]; ff_timestamp := 6; ff_metadata := [(4, 9)];
     ff_globals := [(1, {| gi_sem := Some 7; gi_required := true; gi_multiple := false |})];
     ff_assigns := [(10, {| ai_state := OiData 8; ai_public := true; ai_required := true; ai_multiple := true |});
                    (11, {| ai_state := OiRights; ai_public := false; ai_required := false; ai_multiple := false |})];
     ff_valencies := []; ff_genesis := ix_op MOverride false [(1, sx_once)] [] [(10, sx_many)] None;
     ff_transitions := [(20, ix_op MOverride false [] [(10, sx_many)] [(10, sx_many)] (Some 10));
                        (21, ix_op MFinal false [] [(11, sx_once)] [] None);
                        (22, ix_op MOverride true [] [(11, sx_once)] [] None)]; ff_extensions := [];
     ff_default := None; ff_errors := [] |}.
Definition ix_id (f : FullIface) : N := ff_name f.

Lemma ix_burnable_sorted : iface_sorted ix_burnable.
Proof. srt. Qed.
Lemma ix_named_sorted : iface_sorted ix_named.
Proof. srt. Qed.
Example C40_nonvacuous : iface_sorted ix_burnable /\
  exists r, inherit ix_id 3 [ix_named; ix_burnable] = Ok r /\ ff_inherits r = [100; 1; 200; 2] /\
    mkeys (ff_transitions r) = [20; 21] /\ mget 1 (ff_globals r) = mget 1 (ff_globals ix_burnable) /\ ff_default r = Some 20.
Proof.
  split; [exact ix_burnable_sorted|]. eexists. split; [vm_compute; reflexivity|]. repeat split; vm_compute; reflexivity.
Qed.

(** Optional operations of the extension are dropped when the first interface does not have
    them, so the child does not have all operations of both. *)
Theorem C40_all_operations_refuted :
  ~ (forall id_of own ext name r, iface_sorted own -> iface_sorted ext -> extended id_of own ext name = Ok r -> refines r ext).
Proof.
  intros H. destruct (extended ix_id ix_named ix_burnable 3) as [r|e|] eqn:E; [|vm_compute in E; discriminate..].
  destruct (H ix_id ix_named ix_burnable 3 r ix_named_sorted ix_burnable_sorted E) as (_ & T & _).
  destruct (T 22 _ eq_refl) as [c [G _]]. vm_compute in E. apply Ok_inj in E. subst r. discriminate.
Qed.
Print Assumptions C40_all_operations_refuted.

Definition ix_base (ts : Modifier -> bool -> omap N OpIface) (m : Modifier) (opt : bool) (meta : N) (multiple : bool) : FullIface :=
  {| ff_name := 1; ff_inherits := []; ff_timestamp := 5; ff_metadata := [(3, meta)];
     ff_globals := [(1, {| gi_sem := None; gi_required := false; gi_multiple := multiple |})]; ff_assigns := []; ff_valencies := [];
     ff_genesis := ix_op m false [] [] [] None; ff_transitions := ts m opt; ff_extensions := []; ff_default := None; ff_errors := [] |}.
Definition ix_one (m : Modifier) (opt : bool) : omap N OpIface := [(20, ix_op m opt [] [] [] None)].
Lemma ix_base_sorted m opt meta multiple : iface_sorted (ix_base ix_one m opt meta multiple).
Proof. srt. Qed.

(** A metadata field of both parents gets the type of the second one, without a complaint. *)
Theorem C40_metadata_refuted :
  ~ (forall id_of own ext name r, iface_sorted own -> iface_sorted ext -> extended id_of own ext name = Ok r ->
       agrees (ff_metadata own) (ff_metadata r)).
Proof.
  intros H. destruct (extended ix_id (ix_base ix_one MAbstract false 8 true) (ix_base ix_one MOverride false 9 true) 3) as [r|e|] eqn:E;
    [|vm_compute in E; discriminate..].
  pose proof (H _ _ _ _ _ (ix_base_sorted _ _ _ _) (ix_base_sorted _ _ _ _) E 3 8 eq_refl) as G.
  vm_compute in E. apply Ok_inj in E. subst r. discriminate.
Qed.
Print Assumptions C40_metadata_refuted.

(** An operation which is not optional in the first interface may become optional, ... *)
Theorem C40_required_operation_refuted :
  ~ (forall id_of own ext name r n o c, iface_sorted own -> iface_sorted ext -> extended id_of own ext name = Ok r ->
       mget n (ff_transitions own) = Some o -> oi_optional o = false -> mget n (ff_transitions r) = Some c -> oi_optional c = false).
Proof.
  intros H. destruct (extended ix_id (ix_base ix_one MAbstract false 8 true) (ix_base ix_one MOverride true 9 true) 3) as [r|e|] eqn:E;
    [|vm_compute in E; discriminate..].
  pose proof (fun c => H _ _ _ _ _ 20 _ c (ix_base_sorted _ _ _ _) (ix_base_sorted _ _ _ _) E eq_refl eq_refl) as G.
  vm_compute in E. apply Ok_inj in E. subst r. specialize (G _ eq_refl). discriminate.
Qed.
Print Assumptions C40_required_operation_refuted.

(** ... state which may be repeated in the first may no longer be repeated, ... *)
Theorem C40_multiple_refuted :
  ~ (forall id_of own ext name r n o c, iface_sorted own -> iface_sorted ext -> extended id_of own ext name = Ok r ->
       mget n (ff_globals own) = Some o -> mget n (ff_globals r) = Some c -> gi_multiple c = gi_multiple o).
Proof.
  intros H. destruct (extended ix_id (ix_base ix_one MAbstract false 8 true) (ix_base ix_one MOverride true 9 false) 3) as [r|e|] eqn:E;
    [|vm_compute in E; discriminate..].
  pose proof (fun c => H _ _ _ _ _ 1 _ c (ix_base_sorted _ _ _ _) (ix_base_sorted _ _ _ _) E eq_refl) as G.
  vm_compute in E. apply Ok_inj in E. subst r. specialize (G _ eq_refl). discriminate.
Qed.
Print Assumptions C40_multiple_refuted.

(** ... and an operation which the extension makes final can be overridden again. *)
Theorem C40_final_refuted :
  ~ (forall id_of own ext name r n e c, iface_sorted own -> iface_sorted ext -> extended id_of own ext name = Ok r ->
       mget n (ff_transitions ext) = Some e -> oi_modifier e = MFinal -> mget n (ff_transitions r) = Some c -> oi_modifier c = MFinal).
Proof.
  intros H. destruct (extended ix_id (ix_base ix_one MAbstract false 8 true) (ix_base ix_one MFinal true 9 false) 3) as [r|e|] eqn:E;
    [|vm_compute in E; discriminate..].
  pose proof (fun c => H _ _ _ _ _ 20 _ c (ix_base_sorted _ _ _ _) (ix_base_sorted _ _ _ _) E eq_refl eq_refl) as G.
  vm_compute in E. apply Ok_inj in E. subst r. specialize (G _ eq_refl). discriminate.
Qed.
Print Assumptions C40_final_refuted.

(** The child of two consistent interfaces need not be consistent. *)
Theorem C40_consistent_refuted :
  ~ (forall now is_date id_of own ext name r, iface_sorted own -> iface_sorted ext -> extended id_of own ext name = Ok r ->
       iface_check now is_date own = Ok tt -> iface_check now is_date ext = Ok tt -> iface_check now is_date r = Ok tt).
Proof.
  intros H.
  pose (own := ix_base ix_one MAbstract false 8 true).
  pose (ext := {| ff_name := 2; ff_inherits := []; ff_timestamp := 5; ff_metadata := []; ff_globals := []; ff_assigns := []; ff_valencies := [];
     ff_genesis := ix_op MOverride false [] [] [] None; ff_transitions := []; ff_extensions := ix_one MOverride false; ff_default := None; ff_errors := [] |}).
  destruct (extended ix_id own ext 3) as [r|e|] eqn:E; [|vm_compute in E; discriminate..].
  assert (Se : iface_sorted ext) by (srt).
  pose proof (H 10%Z (fun _ => true) _ _ _ _ _ (ix_base_sorted _ _ _ _) Se E eq_refl eq_refl) as G.
  vm_compute in E. apply Ok_inj in E. subst r. discriminate.
Qed.
Print Assumptions C40_consistent_refuted.

(** Inheriting from a single interface gives that interface: the name asked for is not set,
    and the parent is not listed. *)
Theorem C40_single id_of name f : inherit id_of name [f] = Ok f.
Proof. reflexivity. Qed.
Print Assumptions C40_single.

(** ** C41: consistency of an interface *)

Theorem C41_accepts_iff_partial now is_date f : iface_sorted f ->
  (iface_check now is_date f = Ok tt <-> iface_consistent now is_date f).
Proof.
  intros S. rewrite iface_check_errors, consistent_iff.
  assert (X : (forall e, ~ iface_fails now is_date f e) <-> iface_errors now is_date f = []).
  { rewrite nil_iff. split; intros H e F; apply (H e).
    - now apply iface_In_fails.
    - now apply iface_fails_In. }
  rewrite X. destruct (iface_errors now is_date f); split; congruence.
Qed.
Print Assumptions C41_accepts_iff_partial.

(** When it fails, it reports exactly what is wrong. *)
Theorem C41_reports now is_date f l : iface_sorted f -> iface_check now is_date f = Err l ->
  l <> [] /\ forall e, In e l <-> iface_fails now is_date f e.
Proof.
  intros S E. rewrite iface_check_errors in E.
  assert (X : l = iface_errors now is_date f /\ l <> []).
  { destruct (iface_errors now is_date f); [discriminate|]. injection E as <-. split; [reflexivity|discriminate]. }
  destruct X as [-> Ne]. split; [exact Ne|]. intros e. split; [now apply iface_In_fails|now apply iface_fails_In].
Qed.
Print Assumptions C41_reports.

Example C41_nonvacuous : iface_sorted ix_named /\ iface_check 10 (fun _ => true) ix_named = Ok tt /\
  iface_check 4 (fun _ => true) ix_named = Err [FutureTimestamp 5] /\
  iface_check 10 (fun _ => true)
    {| ff_name := 1; ff_inherits := []; ff_timestamp := 5; ff_metadata := []; ff_globals := ff_globals ix_named; ff_assigns := [];
       ff_valencies := []; ff_genesis := ix_op MAbstract false [(2, sx_once)] [] [] None; ff_transitions := ff_transitions ix_named;
       ff_extensions := []; ff_default := Some 30; ff_errors := [] |}
  = Err [UnknownGlobal GenesisOp 2; UnknownAssignment (TransitionOp 20) 10; UnknownInput (TransitionOp 20) 10; UnknownDefaultOp 30; RequiredGlobalAbsent 1].
Proof. split; [exact ix_named_sorted|]. repeat split; vm_compute; reflexivity. Qed.

(** Only the least number of uses is compared with multiplicity: an operation may allow many
    uses of state which is not multiple. *)
Theorem C41_multiple_refuted :
  ~ (forall now is_date f op o n c g, iface_sorted f -> iface_check now is_date f = Ok tt -> iface_op f op = Some o ->
       mget n (oi_globals o) = Some c -> mget n (ff_globals f) = Some g -> gi_multiple g = false -> oc_max c <= 1).
Proof.
  intros H.
  pose (f := {| ff_name := 1; ff_inherits := []; ff_timestamp := 5; ff_metadata := [];
     ff_globals := [(1, {| gi_sem := None; gi_required := false; gi_multiple := false |})]; ff_assigns := []; ff_valencies := [];
     ff_genesis := ix_op MAbstract false [(1, sx_many)] [] [] None; ff_transitions := []; ff_extensions := []; ff_default := None; ff_errors := [] |}).
  assert (S : iface_sorted f) by (srt).
  pose proof (H 10%Z (fun _ => true) f GenesisOp _ 1 _ _ S eq_refl eq_refl eq_refl eq_refl eq_refl) as L.
  cbn in L. unfold sx_many in L. cbn in L. lia.
Qed.
Print Assumptions C41_multiple_refuted.

(** ** C42: checks of an implementation *)

(** What is reported, exactly: names of the interface without a type, types which the schema
    does not have, names used at least three times, unknown errors, bad timestamps. *)
Theorem C42_reports now is_date im f s :
  match impl_check now is_date im f s with
  | Ok _ => forall e, ~ impl_fails now is_date im f s e
  | Err l => l <> [] /\ forall e, In e l <-> impl_fails now is_date im f s e
  | Panic => False
  end.
Proof.
  rewrite impl_check_errors. destruct (impl_errors now is_date im f s) as [|e l] eqn:E.
  - intros e F. apply impl_In in F. rewrite E in F. destruct F.
  - split; [discriminate|]. intros x. rewrite <- E. apply impl_In.
Qed.
Print Assumptions C42_reports.

(** If it succeeds, every name of the interface has a type of the schema, and whatever the
    implementation resolves, by name or by type, is in the schema.  Partial: names and types
    need not correspond one to one, see below. *)
Theorem C42_resolves_partial now is_date im f s : impl_check now is_date im f s = Ok tt ->
  forall t,
    (forall n, iface_has f t n -> exists id, type_of (impl_fields im t) n = Some id /\ schema_has s t id) /\
    (forall n id, type_of (impl_fields im t) n = Some id -> schema_has s t id) /\
    (forall n id, name_of (impl_fields im t) id = Some n -> schema_has s t id) /\
    (forall n, iface_has f t n -> times n (impl_fields im t) <= 2).
Proof.
  intros C t. pose proof (C42_reports now is_date im f s) as R. rewrite C in R.
  assert (Sc : forall id n, In (id, n) (impl_fields im t) -> schema_has s t id).
  { intros id n I. apply schema_hasb_iff. destruct (schema_hasb s t id) eqn:Q; [reflexivity|]. apply schema_hasb_not in Q.
    destruct (R (SchemaAbsentIn t n id)). split; assumption. }
  split.
  { intros n H. destruct (type_of (impl_fields im t) n) as [id|] eqn:T.
    - exists id. split; [reflexivity|]. apply type_of_some in T. eauto.
    - destruct (R (IfaceAbsentIn t n)). split; [exact H|]. now apply type_of_none. }
  split; [intros n id T; apply type_of_some in T; eauto|].
  split; [intros n id T; apply name_of_some in T; eauto|].
  intros n _. destruct (N.le_gt_cases (times n (impl_fields im t)) 2); [assumption|].
  destruct (R (RepeatedIn t n (times n (impl_fields im t) - 1))). cbn. split; [lia|reflexivity].
Qed.
Print Assumptions C42_resolves_partial.

(** If names and types correspond one to one, the lookups are inverse to each other. *)
Theorem C42_lookups l : one_to_one l -> forall n id, type_of l n = Some id <-> name_of l id = Some n.
Proof.
  intros [O1 O2] n id. split; intros E.
  - apply type_of_some in E. destruct (name_of_in _ _ _ E) as [m M]. rewrite M. f_equal. apply name_of_some in M. eauto.
  - apply name_of_some in E. destruct (type_of_in _ _ _ E) as [m M]. rewrite M. f_equal. apply type_of_some in M. eauto.
Qed.
Print Assumptions C42_lookups.

(** Implementations which are complete, in the schema and have no repeated names pass. *)
Theorem C42_accepts now is_date im f s :
  is_date (fm_timestamp im) = true -> (fm_timestamp im <= now)%Z ->
  (forall t n, iface_has f t n -> exists id, In (id, n) (impl_fields im t)) ->
  (forall t id n, In (id, n) (impl_fields im t) -> schema_has s t id) ->
  (forall t, NoDup (map snd (impl_fields im t))) ->
  (forall id n, In (id, n) (fm_errors im) -> mget n (ff_errors f) <> None) ->
  impl_check now is_date im f s = Ok tt.
Proof.
  intros D T N1 N2 N3 N4. pose proof (C42_reports now is_date im f s) as R.
  destruct (impl_check now is_date im f s) as [[]|l|]; [reflexivity| |destruct R]. destruct R as [Ne R]. exfalso.
  destruct l as [|e l]; [congruence|]. pose proof (proj1 (R e) (or_introl eq_refl)) as F. destruct e; cbn in F.
  - destruct F as [-> F]. congruence.
  - destruct F as [-> [_ F]]. lia.
  - destruct F as [F1 F2]. destruct (N1 _ _ F1) as [id I]. exact (F2 id I).
  - destruct F as [F1 F2]. eauto.
  - destruct F as [F _]. specialize (N3 t). revert F N3. generalize (impl_fields im t). intros q F ND.
    enough (times name q <= 1) by lia. clear F. induction q as [|[i k] q IH]; [unfold times, len; cbn [filter length]; lia|].
    cbn in ND. apply NoDup_cons_iff in ND. destruct ND as [Nin ND]. rewrite times_cons. cbn [snd].
    destruct (N.eqb_spec k name) as [->|_]; [|specialize (IH ND); lia].
    replace (times name q) with 0; [lia|]. symmetry. apply times_zero. intros id I. apply Nin, in_map_iff. exists (id, name). auto.
  - destruct F as [[id I] F]. exact (N4 _ _ I F).
Qed.
Print Assumptions C42_accepts.

Definition ix_impl (assigns : oset (N * N)) : FullImpl :=
  {| fm_schema := 50; fm_iface := 1; fm_timestamp := 5; fm_metadata := [(3, 3)]; fm_globals := [(1, 1)]; fm_assigns := assigns;
     fm_valencies := []; fm_transitions := [(20, 20)]; fm_extensions := []; fm_errors := [] |}.
Example C42_nonvacuous : impl_check 10 (fun _ => true) (ix_impl [(10, 10)]) ix_named sx_root = Ok tt /\
  impl_check 10 (fun _ => true) (ix_impl [(12, 12)]) ix_named sx_schema =
    Err [SchemaAbsentIn TMeta 3 3; IfaceAbsentIn TAssignment 10; SchemaAbsentIn TAssignment 12 12].
Proof. split; vm_compute; reflexivity. Qed.

(** A name may have two types, and a type two names: a name is counted from zero, and types
    are not counted. *)
Theorem C42_one_to_one_refuted :
  ~ (forall now is_date im f s t, impl_check now is_date im f s = Ok tt ->
       forall id id' n, In (id, n) (impl_fields im t) -> In (id', n) (impl_fields im t) -> id = id') /\
  ~ (forall now is_date im f s t, impl_check now is_date im f s = Ok tt ->
       forall id n n', In (id, n) (impl_fields im t) -> In (id, n') (impl_fields im t) -> n = n').
Proof.
  split; intros H.
  - pose proof (H 10%Z (fun _ => true) (ix_impl [(10, 10); (11, 10)]) ix_named sx_root TAssignment eq_refl 10 11 10) as X.
    cbn in X. assert (10 = 11) by (apply X; auto). discriminate.
  - pose proof (H 10%Z (fun _ => true) (ix_impl [(10, 10); (10, 11)]) ix_named sx_root TAssignment eq_refl 10 10 11) as X.
    cbn in X. assert (10 = 11) by (apply X; auto). discriminate.
Qed.
Print Assumptions C42_one_to_one_refuted.

(** The kind of state is not compared: what the interface calls data may be an amount in the
    schema. *)
Theorem C42_kinds_refuted :
  ~ (forall now is_date im f s n id a o, impl_check now is_date im f s = Ok tt ->
       mget n (ff_assigns f) = Some a -> type_of (fm_assigns im) n = Some id -> mget id (fs_owned s) = Some o -> kind_fits (ai_state a) o).
Proof.
  intros H. exact (H 10%Z (fun _ => true) (ix_impl [(10, 10)]) ix_named sx_root 10 10 _ _ eq_refl eq_refl eq_refl eq_refl).
Qed.
Print Assumptions C42_kinds_refuted.

(** ** C43: abstracting an implementation to a parent interface *)

(** What is kept: in every table but valencies, the mappings of names which both the base
    and the parent define. *)
Theorem C43_kept_partial id_of im base parent r : abstracted id_of im base parent = Ok (Some r) ->
  (forall t, t <> TValency -> forall n,
     (iface_has base t n /\ iface_has parent t n -> type_of (impl_fields r t) n = type_of (impl_fields im t) n) /\
     (~ (iface_has base t n /\ iface_has parent t n) -> forall id, ~ In (id, n) (impl_fields r t)) /\
     (forall id, In (id, n) (impl_fields r t) -> In (id, n) (impl_fields im t))) /\
  fm_iface r = id_of parent /\ fm_schema r = fm_schema im /\ fm_timestamp r = fm_timestamp im /\ fm_errors r = fm_errors im /\
  In (id_of parent) (ff_inherits base) /\ fm_iface im = id_of base.
Proof.
  unfold abstracted. destruct (N.eqb_spec (fm_iface im) (id_of base)) as [Ei|]; [|discriminate]. cbn.
  destruct (existsb (N.eqb (id_of parent)) (ff_inherits base)) eqn:Q; [|discriminate]. cbn. intros E. apply Ok_inj, Some_inj in E.
  apply existsb_exists in Q. destruct Q as [x [I Ex]]. apply N.eqb_eq in Ex. subst x r. cbn. split; [|auto 10].
  assert (G : forall V W (b : omap N V) (p : omap N W) l n,
     (mget n b <> None /\ mget n p <> None -> type_of (abstract_table b p l) n = type_of l n) /\
     (~ (mget n b <> None /\ mget n p <> None) -> forall id, ~ In (id, n) (abstract_table b p l)) /\
     (forall id, In (id, n) (abstract_table b p l) -> In (id, n) l)).
  { intros V W b p l n. split; [|split].
    - intros [B P]. apply mhas_iff in B, P. rewrite abstract_table_type, B, P. reflexivity.
    - intros X id J. apply abstract_table_In in J. apply X. tauto.
    - intros id J. apply abstract_table_In in J. apply type_of_some. tauto. }
  intros t Nt n. destruct t; cbn; try apply G. congruence.
Qed.
Print Assumptions C43_kept_partial.

(** When it is possible at all *)
Theorem C43_possible id_of im base parent :
  (abstracted id_of im base parent = Panic <-> fm_iface im <> id_of base) /\
  (abstracted id_of im base parent = Ok None <-> fm_iface im = id_of base /\ ~ In (id_of parent) (ff_inherits base)).
Proof.
  unfold abstracted. destruct (N.eqb_spec (fm_iface im) (id_of base)) as [Ei|Ne]; cbn.
  - destruct (existsb (N.eqb (id_of parent)) (ff_inherits base)) eqn:Q; cbn.
    + apply existsb_exists in Q. destruct Q as [x [I Ex]]. apply N.eqb_eq in Ex. subst x. split; split; try discriminate; tauto.
    + split; split; try discriminate; try tauto. intros _. split; [exact Ei|]. intros I.
      assert (X : existsb (N.eqb (id_of parent)) (ff_inherits base) = true) by (apply existsb_exists; exists (id_of parent); split; [exact I|apply N.eqb_refl]).
      congruence.
  - split; split; try discriminate; try tauto. 
Qed.
Print Assumptions C43_possible.

(** An implementation which fits the base still fits the parent, if the base has all names of
    the parent, the parent has no valencies and defines the errors. *)
Theorem C43_still_fits_partial id_of now is_date im base parent s r :
  abstracted id_of im base parent = Ok (Some r) -> impl_check now is_date im base s = Ok tt ->
  (forall t n, iface_has parent t n -> iface_has base t n) -> ff_valencies parent = [] ->
  (forall id n, In (id, n) (fm_errors im) -> mget n (ff_errors parent) <> None) ->
  impl_check now is_date r parent s = Ok tt.
Proof.
  intros A C Sub NV Er. pose proof (C42_resolves_partial now is_date im base s C) as Res.
  pose proof (C42_reports now is_date im base s) as R. rewrite C in R.
  destruct (C43_kept_partial _ _ _ _ _ A) as (K & _ & _ & Kt & Ke & _).
  assert (Dt : is_date (fm_timestamp im) = true /\ (fm_timestamp im <= now)%Z).
  { destruct (is_date (fm_timestamp im)) eqn:D.
    - split; [reflexivity|]. destruct (Z.le_gt_cases (fm_timestamp im) now); [assumption|].
      destruct (R (ImplFutureTimestamp (fm_timestamp im))). cbn. auto.
    - destruct (R (ImplInvalidTimestamp (fm_timestamp im))). cbn. auto. }
  assert (Val : fm_valencies r = []).
  { unfold abstracted in A. destruct (fm_iface im =? id_of base); [|discriminate]. cbn in A.
    destruct (existsb (N.eqb (id_of parent)) (ff_inherits base)); [|discriminate]. cbn in A. apply Ok_inj, Some_inj in A. subst r. cbn.
    apply nil_iff. intros [id n] I. apply abstract_table_In in I. rewrite NV in I. cbn in I. tauto. }
  apply C42_accepts; rewrite ?Kt; try apply Dt.
  - intros t n H. destruct (match t with TValency => true | _ => false end) eqn:Tv.
    + destruct t; try discriminate. cbn in H. rewrite NV in H. destruct H. reflexivity.
    + assert (Nt : t <> TValency) by (intros ->; discriminate). destruct (K t Nt n) as (K1 & _).
      destruct (proj1 (Res t) n (Sub t n H)) as [id [T _]]. exists id. apply type_of_some. rewrite K1; [exact T|]. split; [auto|exact H].
  - intros t id n I. destruct (match t with TValency => true | _ => false end) eqn:Tv.
    + destruct t; try discriminate. cbn in I. rewrite Val in I. destruct I.
    + assert (Nt : t <> TValency) by (intros ->; discriminate). destruct (K t Nt n) as (_ & _ & K3). apply K3 in I.
      apply schema_hasb_iff. destruct (schema_hasb s t id) eqn:Q; [reflexivity|]. apply schema_hasb_not in Q.
      destruct (R (SchemaAbsentIn t n id)). split; assumption.
  - assert (ND : forall V W (b : omap N V) (p : omap N W) l, NoDup (map snd (abstract_table b p l))).
    { intros V W b p l.
      assert (Fn : forall id id' n, In (id, n) (abstract_table b p l) -> In (id', n) (abstract_table b p l) -> id = id').
      { intros id id' n X Y. apply abstract_table_In in X, Y. destruct X as (_ & _ & X), Y as (_ & _ & Y). congruence. }
      assert (Nd : NoDup (abstract_table b p l)) by (unfold abstract_table; apply ssorted_NoDup, sfrom_sorted).
      revert Fn Nd. generalize (abstract_table b p l). intros q. induction q as [|[i k] q IH]; intros Fn Nd; [constructor|].
      cbn. apply NoDup_cons_iff in Nd. destruct Nd as [Nin Nd]. constructor.
      - intros X. apply in_map_iff in X. destruct X as [[i' k'] [Ek I]]. cbn in Ek. subst k'. apply Nin.
        rewrite (Fn i i' k); [exact I|now left|now right].
      - apply IH; [|exact Nd]. intros id id' n X Y. apply (Fn id id' n); right; assumption. }
    unfold abstracted in A. destruct (fm_iface im =? id_of base); [|discriminate]. cbn in A.
    destruct (existsb (N.eqb (id_of parent)) (ff_inherits base)); [|discriminate]. cbn in A. apply Ok_inj, Some_inj in A. subst r.
    intros t. destruct t; cbn; apply ND.
  - intros id n I. rewrite Ke in I. eauto.
Qed.
Print Assumptions C43_still_fits_partial.

(** A base with a valency and an error, inherited from a parent *)
Definition ix_parent : FullIface :=
  {| ff_name := 100; ff_inherits := []; ff_timestamp := 5; ff_metadata := []; ff_globals := ff_globals ix_named; ff_assigns := [];
     ff_valencies := [(5, false)]; ff_genesis := ix_op MAbstract false [(1, sx_once)] [] [] None; ff_transitions := []; ff_extensions := [];
     ff_default := None; ff_errors := [] |}.
Definition ix_child : FullIface :=
  {| ff_name := 1; ff_inherits := [100]; ff_timestamp := 5; ff_metadata := [(3, 9)]; ff_globals := ff_globals ix_named; ff_assigns := ff_assigns ix_named;
     ff_valencies := [(5, false)]; ff_genesis := ff_genesis ix_named; ff_transitions := ff_transitions ix_named; ff_extensions := [];
     ff_default := None; ff_errors := [(7, 7)] |}.
Definition ix_child_impl : FullImpl :=
  {| fm_schema := 50; fm_iface := 1; fm_timestamp := 5; fm_metadata := [(3, 3)]; fm_globals := [(1, 1)]; fm_assigns := [(10, 10)];
     fm_valencies := [(5, 5)]; fm_transitions := [(20, 20)]; fm_extensions := []; fm_errors := [(7, 7)] |}.
Example C43_nonvacuous : impl_check 10 (fun _ => true) ix_child_impl ix_child sx_root = Ok tt /\
  exists r, abstracted ix_id ix_child_impl ix_child ix_parent = Ok (Some r) /\
    fm_globals r = [(1, 1)] /\ fm_assigns r = [] /\ fm_transitions r = [].
Proof. split; [vm_compute; reflexivity|]. eexists. split; [vm_compute; reflexivity|]. repeat split; vm_compute; reflexivity. Qed.

(** Valencies get lost: the names looked for are those of the assignments of the base. *)
Theorem C43_valencies_refuted :
  ~ (forall id_of im base parent r n, abstracted id_of im base parent = Ok (Some r) ->
       iface_has base TValency n -> iface_has parent TValency n -> type_of (fm_valencies r) n = type_of (fm_valencies im) n).
Proof.
  intros H. destruct (abstracted ix_id ix_child_impl ix_child ix_parent) as [[r|]|e|] eqn:E; try (vm_compute in E; discriminate).
  pose proof (H _ _ _ _ _ 5 E) as X. vm_compute in E. apply Ok_inj, Some_inj in E. subst r. cbn in X.
  assert (None = Some 5) by (apply X; discriminate). discriminate.
Qed.
Print Assumptions C43_valencies_refuted.

(** Errors which the parent does not define are kept, so that the result does not pass the
    check against the parent, although the original passes it against the base. *)
Theorem C43_still_fits_refuted :
  ~ (forall id_of now is_date im base parent s r,
       abstracted id_of im base parent = Ok (Some r) -> impl_check now is_date im base s = Ok tt ->
       (forall t n, iface_has parent t n -> iface_has base t n) -> ff_valencies parent = [] ->
       impl_check now is_date r parent s = Ok tt).
Proof.
  intros H.
  pose (parent := {| ff_name := 100; ff_inherits := []; ff_timestamp := 5; ff_metadata := []; ff_globals := ff_globals ix_named; ff_assigns := [];
     ff_valencies := []; ff_genesis := ix_op MAbstract false [(1, sx_once)] [] [] None; ff_transitions := []; ff_extensions := [];
     ff_default := None; ff_errors := [] |}).
  destruct (abstracted ix_id ix_child_impl ix_child parent) as [[r|]|e|] eqn:E; try (vm_compute in E; discriminate).
  pose proof (H _ 10%Z (fun _ => true) _ _ _ sx_root _ E eq_refl) as X.
  assert (Y : impl_check 10 (fun _ => true) r parent sx_root = Ok tt).
  { apply X; [|reflexivity]. intros t n. destruct t; cbn; intros Z; try (destruct Z; reflexivity). exact Z. }
  vm_compute in E. apply Ok_inj, Some_inj in E. subst r. discriminate Y.
Qed.
Print Assumptions C43_still_fits_refuted.

(** Which implementation is used for an interface: its own, else that of its last ancestor
    which has one. *)
Theorem C43_found {A} (impl_of : N -> option A) id inherits x : find_abstractable impl_of id inherits = Some x <->
  impl_of id = Some x \/
  (impl_of id = None /\ exists l1 p l2, inherits = l1 ++ p :: l2 /\ impl_of p = Some x /\ forall q, In q l2 -> impl_of q = None).
Proof.
  unfold find_abstractable.
  assert (F : forall l y, find_map impl_of l = Some y <->
    exists l1 p l2, l = l1 ++ p :: l2 /\ impl_of p = Some y /\ forall q, In q l1 -> impl_of q = None).
  { induction l as [|a l IH]; intros y; cbn.
    - split; [discriminate|]. intros [l1 [p [l2 [E _]]]]. destruct l1; discriminate.
    - destruct (impl_of a) as [b|] eqn:Ea.
      + split.
        * intros E. apply Some_inj in E. subst. exists [], a, l. split; [reflexivity|]. split; [exact Ea|intros q []].
        * intros [l1 [p [l2 [E [P Q]]]]]. destruct l1 as [|c l1]; cbn in E; injection E as <- E.
          -- congruence.
          -- rewrite (Q a (or_introl eq_refl)) in Ea. discriminate.
      + rewrite IH. split.
        * intros [l1 [p [l2 [-> [P Q]]]]]. exists (a :: l1), p, l2. split; [reflexivity|]. split; [exact P|]. intros q [<-|I]; auto.
        * intros [l1 [p [l2 [E [P Q]]]]]. destruct l1 as [|c l1]; cbn in E; injection E as <- E; [congruence|].
          exists l1, p, l2. split; [exact E|]. split; [exact P|]. intros q I. apply Q. now right. }
  destruct (impl_of id) as [z|] eqn:Ei.
  - split; [now left|]. intros [E|[E _]]; [exact E|discriminate].
  - rewrite F. split.
    + intros [l1 [p [l2 [E [P Q]]]]]. right. split; [reflexivity|]. exists (rev l2), p, (rev l1).
      split. { rewrite <- (rev_involutive inherits), E, rev_app_distr. cbn. now rewrite <- app_assoc. }
      split; [exact P|]. intros q I. apply Q. now apply in_rev.
    + intros [E|[_ [l1 [p [l2 [-> [P Q]]]]]]]; [discriminate|]. exists (rev l2), p, (rev l1).
      split. { rewrite rev_app_distr. cbn. now rewrite <- app_assoc. }
      split; [exact P|]. intros q I. apply Q. now apply in_rev.
Qed.
Print Assumptions C43_found.
