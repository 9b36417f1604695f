(** * The reports on a whole interface *)
From Verif Require Import Base IfaceModel IfaceSpec IfaceProofs IfaceExt ReportSpec ReportProofs.
Local Open Scope N_scope.

Lemma global_fails_iff own ext e :
  map_fails global_bad own ext e <->
  exists n o x, mget n own = Some o /\ mget n ext = Some x /\
    ((e = GlobalType n /\ exists t, gi_sem o = Some t /\ gi_sem x <> Some t) \/
     (e = GlobalOcc n /\ (forall t, gi_sem o = Some t -> gi_sem x = Some t) /\ gi_required o = true /\ gi_required x = false)).
Proof.
  assert (B : forall n o x, global_bad n o x = Some e <->
    ((e = GlobalType n /\ exists t, gi_sem o = Some t /\ gi_sem x <> Some t) \/
     (e = GlobalOcc n /\ (forall t, gi_sem o = Some t -> gi_sem x = Some t) /\ gi_required o = true /\ gi_required x = false))).
  { intros n o x. unfold global_bad.
    assert (T : (if match gi_sem o with Some x0 => negb (match gi_sem x with Some y => x0 =? y | None => false end) | None => false end
                 then exists t, gi_sem o = Some t /\ gi_sem x <> Some t
                 else forall t, gi_sem o = Some t -> gi_sem x = Some t)).
    { destruct (gi_sem o) as [t|]; [|discriminate]. destruct (gi_sem x) as [y|]; cbn.
      - destruct (N.eqb_spec t y) as [->|Ne]; cbn; [auto|]. exists t. split; [reflexivity|congruence].
      - exists t. split; [reflexivity|discriminate]. }
    destruct (match gi_sem o with Some x0 => negb (match gi_sem x with Some y => x0 =? y | None => false end) | None => false end).
    - split; [intros E; apply Some_inj in E; subst; left; auto|].
      intros [[-> _]|(_ & A & _)]; [reflexivity|]. destruct T as (t & T1 & T2). destruct (T2 (A t T1)).
    - split.
      + destruct (gi_required o), (gi_required x); cbn; try discriminate. intros E. apply Some_inj in E. subst. right. auto.
      + intros [[_ (t & T1 & T2)]|(-> & _ & -> & ->)]; [destruct (T2 (T t T1))|reflexivity]. }
  unfold map_fails. split; intros (n & o & x & G1 & G2 & H); exists n, o, x; repeat split; try assumption; now apply B.
Qed.
Lemma assign_fails_iff own ext e :
  map_fails assign_bad own ext e <->
  exists n o x, mget n own = Some o /\ mget n ext = Some x /\
    ((e = AssignmentType n /\ ~ refines_state (ai_state x) (ai_state o)) \/
     (e = AssignmentOcc n /\ refines_state (ai_state x) (ai_state o) /\ ai_required o = true /\ ai_required x = false) \/
     (e = AssignmentPublic n /\ refines_state (ai_state x) (ai_state o) /\ (ai_required o = true -> ai_required x = true) /\
      ai_public o = true /\ ai_public x = false)).
Proof.
  assert (B : forall n o x, assign_bad n o x = Some e <->
    ((e = AssignmentType n /\ ~ refines_state (ai_state x) (ai_state o)) \/
     (e = AssignmentOcc n /\ refines_state (ai_state x) (ai_state o) /\ ai_required o = true /\ ai_required x = false) \/
     (e = AssignmentPublic n /\ refines_state (ai_state x) (ai_state o) /\ (ai_required o = true -> ai_required x = true) /\
      ai_public o = true /\ ai_public x = false))).
  { intros n o x. unfold assign_bad. rewrite <- is_superset_iff.
    destruct (is_superset (ai_state o) (ai_state x)), (ai_required o), (ai_required x), (ai_public o), (ai_public x); cbn;
    (split; [intros E; try discriminate; apply Some_inj in E; subst e; intuition congruence|]);
    intros [(-> & E)|[(-> & E1 & E2 & E3)|(-> & E1 & E2 & E3 & E4)]]; try congruence; try (destruct (E eq_refl));
    try discriminate (E2 eq_refl); try reflexivity. }
  unfold map_fails. split; intros (n & o & x & G1 & G2 & H); exists n, o, x; repeat split; try assumption; now apply B.
Qed.
Lemma valency_fails_iff own ext e :
  map_fails valency_bad own ext e <-> exists n, mget n own = Some true /\ mget n ext = Some false /\ e = ValencyOcc n.
Proof.
  unfold map_fails, valency_bad. split.
  - intros (n & [|] & [|] & G1 & G2 & B); cbn in B; try discriminate. apply Some_inj in B. exists n. auto.
  - intros (n & G1 & G2 & ->). exists n, true, false. auto.
Qed.

Section Whole.
  Context (id_of : FullIface -> N).

  (** What is wrong, by parts *)
  Definition parts_fail (own ext : FullIface) (e : ExtensionError) : Prop :=
    (e = MetaOverflow /\ crowded (ff_metadata own) (ff_metadata ext)) \/
    (map_fails global_bad (ff_globals own) (ff_globals ext) e \/ (e = GlobalOverflow /\ too_many (ff_globals own) (ff_globals ext))) \/
    (map_fails assign_bad (ff_assigns own) (ff_assigns ext) e \/ (e = AssignmentOverflow /\ too_many (ff_assigns own) (ff_assigns ext))) \/
    (map_fails valency_bad (ff_valencies own) (ff_valencies ext) e \/ (e = ValencyOverflow /\ too_many (ff_valencies own) (ff_valencies ext))) \/
    (op_fails GenesisOp GenesisOp (ff_genesis own) (ff_genesis ext) e) \/
    ((exists n o x, mget n (ff_transitions own) = Some o /\ mget n (ff_transitions ext) = Some x /\
        op_fails (TransitionOp n) (TransitionOp n) o x e) \/
     (e = TransitionOverflow /\ too_many (ff_transitions own) (ff_transitions ext))) \/
    ((exists n o x, mget n (ff_extensions own) = Some o /\ mget n (ff_extensions ext) = Some x /\
        op_fails (ExtensionOp n) (TransitionOp n) o x e) \/
     (e = TransitionOverflow /\ too_many (ff_extensions own) (ff_extensions ext))) \/
    (e = ErrorOverflow /\ crowded (ff_errors own) (ff_errors ext)) \/
    (e = DefaultOverride /\ other_default (ff_default own) (ff_default ext)) \/
    (e = InheritanceOverflow /\ U8MAX < len (ff_inherits own) + len (ff_inherits ext) + 2).

  Lemma errs_in {A} (r : result (list ExtensionError) A) e : In e (errs_of r) -> exists es, r = Err es /\ In e es.
  Proof. destruct r; cbn; try (intros []; fail). eauto. Qed.

  Lemma extended_errs own ext name :
    errs_of (extended id_of own ext name) =
      snd (map_extend MetaOverflow (ff_metadata own) (ff_metadata ext)) ++
      snd (ext_map global_bad GlobalOverflow (ff_globals own) (ff_globals ext)) ++
      snd (ext_map assign_bad AssignmentOverflow (ff_assigns own) (ff_assigns ext)) ++
      snd (ext_map valency_bad ValencyOverflow (ff_valencies own) (ff_valencies ext)) ++
      errs_of (genesis_extended (ff_genesis own) (ff_genesis ext)) ++
      snd (ext_ops transition_extended (ff_transitions own) (ff_transitions ext)) ++
      snd (ext_ops extension_extended (ff_extensions own) (ff_extensions ext)) ++
      snd (map_extend ErrorOverflow (ff_errors own) (ff_errors ext)) ++
      snd (ext_default DefaultOverride (ff_default own) (ff_default ext)) ++
      match ext_inherits (ff_inherits own) (id_of own) (ff_inherits ext) (id_of ext) with
      | Some _ => [] | None => [InheritanceOverflow] end.
  Proof.
    unfold extended.
    destruct (map_extend MetaOverflow (ff_metadata own) (ff_metadata ext)) as [m1 e1].
    destruct (ext_map global_bad GlobalOverflow (ff_globals own) (ff_globals ext)) as [m2 e2].
    destruct (ext_map assign_bad AssignmentOverflow (ff_assigns own) (ff_assigns ext)) as [m3 e3].
    destruct (ext_map valency_bad ValencyOverflow (ff_valencies own) (ff_valencies ext)) as [m4 e4].
    destruct (genesis_extended (ff_genesis own) (ff_genesis ext)) as [g|ge|];
    destruct (ext_ops transition_extended (ff_transitions own) (ff_transitions ext)) as [m6 e6];
    destruct (ext_ops extension_extended (ff_extensions own) (ff_extensions ext)) as [m7 e7];
    destruct (map_extend ErrorOverflow (ff_errors own) (ff_errors ext)) as [m8 e8];
    destruct (ext_default DefaultOverride (ff_default own) (ff_default ext)) as [m9 e9];
    destruct (ext_inherits (ff_inherits own) (id_of own) (ff_inherits ext) (id_of ext)) as [l|];
    rewrite errs_match; cbn [snd errs_of]; reflexivity.
  Qed.

  Lemma parts_sound own ext name e : iface_sorted own -> iface_sorted ext ->
    In e (errs_of (extended id_of own ext name)) -> parts_fail own ext e.
  Proof.
    intros (AM & AG & AA & AV & A0 & AT & AT' & AX & AX' & AE) (SM & SG & SA & SV & S0 & ST & ST' & SX & SX' & SE) I.
    rewrite extended_errs, !in_app_iff in I. unfold parts_fail.
    destruct I as [I|[I|[I|[I|[I|[I|[I|[I|[I|I]]]]]]]]].
    - left. now apply map_extend_sound in I.
    - right; left. apply ext_map_sound in I; [exact I|exact AG|now apply msorted_NoDup].
    - do 2 right; left. apply ext_map_sound in I; [exact I|exact AA|now apply msorted_NoDup].
    - do 3 right; left. apply ext_map_sound in I; [exact I|exact AV|now apply msorted_NoDup].
    - do 4 right; left. apply errs_in in I. destruct I as (es & E & I). now apply (genesis_err_sound _ _ es e A0 S0).
    - do 5 right; left. apply ext_ops_sound in I; [|intros; apply transition_speaks|exact AT|now apply msorted_NoDup].
      destruct I as [(n & o & x & G1 & G2 & I)|I]; [left|right; exact I].
      apply errs_in in I. destruct I as (es & E & I). exists n, o, x. split; [exact G1|]. split; [exact G2|].
      apply (transition_err_sound n o x es); eauto.
    - do 6 right; left. apply ext_ops_sound in I; [|intros; apply extension_speaks|exact AX|now apply msorted_NoDup].
      destruct I as [(n & o & x & G1 & G2 & I)|I]; [left|right; exact I].
      apply errs_in in I. destruct I as (es & E & I). exists n, o, x. split; [exact G1|]. split; [exact G2|].
      apply (extension_err_sound n o x es); eauto.
    - do 7 right; left. now apply map_extend_sound in I.
    - do 8 right; left. now apply ext_default_in in I.
    - do 9 right. destruct (ext_inherits (ff_inherits own) (id_of own) (ff_inherits ext) (id_of ext)) as [l|] eqn:X; [destruct I|].
      destruct I as [<-|[]]. split; [reflexivity|].
      destruct (N.le_gt_cases (len (ff_inherits own) + len (ff_inherits ext) + 2) U8MAX) as [L|L]; [|exact L].
      destruct (ext_inherits_room (ff_inherits own) (id_of own) (ff_inherits ext) (id_of ext) L). congruence.
  Qed.

  Lemma parts_complete own ext name e : iface_sorted ext -> iface_fits own ext ->
    parts_fail own ext e -> In e (errs_of (extended id_of own ext name)).
  Proof.
    intros (SM & SG & SA & SV & S0 & ST & ST' & SX & SX' & SE) (F1 & F2 & F3 & F4 & F5 & F6 & F6' & F7 & F7' & F8 & F9) H.
    rewrite extended_errs, !in_app_iff. unfold parts_fail in H.
    destruct H as [H|[H|[H|[H|[H|[H|[H|[H|[H|H]]]]]]]]].
    - destruct H as [_ H]. destruct (crowded_not_fit _ _ F1 H).
    - right; left. destruct H as [H|[_ H]]; [|destruct (too_many_not_fit _ _ F2 H)].
      apply ext_map_complete; [now apply msorted_NoDup|exact F2|exact H].
    - do 2 right; left. destruct H as [H|[_ H]]; [|destruct (too_many_not_fit _ _ F3 H)].
      apply ext_map_complete; [now apply msorted_NoDup|exact F3|exact H].
    - do 3 right; left. destruct H as [H|[_ H]]; [|destruct (too_many_not_fit _ _ F4 H)].
      apply ext_map_complete; [now apply msorted_NoDup|exact F4|exact H].
    - do 4 right; left. now apply genesis_err_complete.
    - do 5 right; left. destruct H as [(n & o & x & G1 & G2 & H)|[_ H]]; [|destruct (too_many_not_fit _ _ F6 H)].
      apply ext_ops_complete; [intros; apply transition_speaks|now apply msorted_NoDup|exact F6|].
      exists n, o, x. split; [exact G1|]. split; [exact G2|]. apply transition_err_complete; eauto.
    - do 6 right; left. destruct H as [(n & o & x & G1 & G2 & H)|[_ H]]; [|destruct (too_many_not_fit _ _ F7 H)].
      apply ext_ops_complete; [intros; apply extension_speaks|now apply msorted_NoDup|exact F7|].
      exists n, o, x. split; [exact G1|]. split; [exact G2|]. apply extension_err_complete; eauto.
    - destruct H as [_ H]. destruct (crowded_not_fit _ _ F8 H).
    - do 8 right; left. now apply ext_default_in.
    - destruct H as [_ H]. lia.
  Qed.

  (** The parts and the statement *)
  Lemma op_fails_said own ext op o x e : iface_op own op = Some o -> iface_op ext op = Some x ->
    op_fails op (said_op op) o x e -> exists e', extension_fails own ext e' /\ e = said e'.
  Proof.
    intros G1 G2 H.
    destruct H as [H|[H|[H|[H|[H|[H|[H|[H|H]]]]]]]].
    - destruct H as [[-> H]|(-> & H & H')]; [exists (OpFinal op)|exists (OpNoOverride op)]; (split; [exists o, x; auto|reflexivity]).
    - destruct H as [-> H]. exists (OpOverflow op PMetadata). split; [exists o, x; auto|reflexivity].
    - destruct H as [(n & -> & H)|[-> H]]; [exists (OpOcc op PGlobal n)|exists (OpOverflow op PGlobal)]; (split; [exists o, x; auto|reflexivity]).
    - destruct H as [(n & -> & H)|[-> H]]; [exists (OpOcc op PAssignment n)|exists (OpOverflow op PAssignment)]; (split; [exists o, x; auto|reflexivity]).
    - destruct H as [-> H]. exists (OpOverflow op PValency). split; [exists o, x; auto|reflexivity].
    - destruct H as [-> H]. exists (OpOverflow op PError). split; [exists o, x; auto|reflexivity].
    - destruct H as [K [(n & -> & H)|[-> H]]].
      + exists (OpOcc op PInput n). split; [split; [exact K|exists o, x; auto]|reflexivity].
      + exists (OpOverflow op PInput). split; [left; split; [exact K|exists o, x; auto]|reflexivity].
    - destruct H as (K & -> & H). exists (OpOverflow op PInput). split; [right; split; [exact K|exists o, x; auto]|reflexivity].
    - destruct H as (K & -> & H). exists (OpDefaultOverride op). split; [split; [exact K|exists o, x; auto]|reflexivity].
  Qed.

  Lemma parts_reported own ext e : parts_fail own ext e -> reported own ext e.
  Proof.
    unfold parts_fail, reported. intros [H|[H|[H|[H|[H|[H|[H|[H|[H|H]]]]]]]]].
    - destruct H as [-> H]. left. exists MetaOverflow. auto.
    - left. destruct H as [H|[-> H]]; [|exists GlobalOverflow; auto].
      apply global_fails_iff in H. destruct H as (n & o & x & G1 & G2 & [[-> H]|[-> H]]);
      [exists (GlobalType n)|exists (GlobalOcc n)]; (split; [exists o, x; auto|reflexivity]).
    - left. destruct H as [H|[-> H]]; [|exists AssignmentOverflow; auto].
      apply assign_fails_iff in H. destruct H as (n & o & x & G1 & G2 & [[-> H]|[[-> H]|[-> H]]]);
      [exists (AssignmentType n)|exists (AssignmentOcc n)|exists (AssignmentPublic n)]; (split; [exists o, x; auto|reflexivity]).
    - left. destruct H as [H|[-> H]]; [|exists ValencyOverflow; auto].
      apply valency_fails_iff in H. destruct H as (n & G1 & G2 & ->). exists (ValencyOcc n). split; [split; assumption|reflexivity].
    - left. now apply (op_fails_said own ext GenesisOp (ff_genesis own) (ff_genesis ext)).
    - left. destruct H as [(n & o & x & G1 & G2 & H)|[-> H]]; [|exists TransitionOverflow; auto].
      now apply (op_fails_said own ext (TransitionOp n) o x).
    - destruct H as [(n & o & x & G1 & G2 & H)|H]; [left|right; exact H].
      now apply (op_fails_said own ext (ExtensionOp n) o x).
    - destruct H as [-> H]. left. exists ErrorOverflow. auto.
    - destruct H as [-> H]. left. exists DefaultOverride. auto.
    - destruct H as [-> H]. left. exists InheritanceOverflow. auto.
  Qed.
  Lemma op_fails_parts own ext op o x e : iface_op own op = Some o -> iface_op ext op = Some x ->
    op_fails op (said_op op) o x e -> parts_fail own ext e.
  Proof.
    intros G1 G2 H. unfold parts_fail. destruct op as [|n|n]; cbn [iface_op said_op] in *.
    - apply Some_inj in G1, G2. subst. do 4 right. left. exact H.
    - do 5 right. left. left. exists n, o, x. auto.
    - do 6 right. left. left. exists n, o, x. auto.
  Qed.
  Lemma reported_parts own ext e : reported own ext e -> parts_fail own ext e.
  Proof.
    intros [(e' & H & ->)|[-> H]]; [|unfold parts_fail; do 6 right; left; right; auto].
    destruct e' as [| |n|n| |n|n|n| |n| | | |op|op|op p|op|op p n|]; cbn [said]; cbn beta iota zeta delta [extension_fails] in H.
    all: try (destruct p).
    all: try (unfold parts_fail; tauto).
    all: try (destruct H as (o & x & G1 & G2 & H); apply (op_fails_parts own ext op o x); [exact G1|exact G2|];
              unfold op_fails, modifier_fails, occ_fails; now eauto 15).
    - destruct H as (o & x & G1 & G2 & H). unfold parts_fail. right; left; left. apply global_fails_iff. exists n, o, x. tauto.
    - destruct H as (o & x & G1 & G2 & H). unfold parts_fail. right; left; left. apply global_fails_iff. exists n, o, x. tauto.
    - destruct H as (o & x & G1 & G2 & H). unfold parts_fail. do 2 right; left; left. apply assign_fails_iff. exists n, o, x. tauto.
    - destruct H as (o & x & G1 & G2 & H). unfold parts_fail. do 2 right; left; left. apply assign_fails_iff. exists n, o, x. tauto.
    - destruct H as (o & x & G1 & G2 & H). unfold parts_fail. do 2 right; left; left. apply assign_fails_iff. exists n, o, x. tauto.
    - destruct H as [G1 G2]. unfold parts_fail. do 3 right; left; left. apply valency_fails_iff. exists n. auto.
    - destruct H as [(K & o & x & G1 & G2 & H)|(K & o & x & G1 & G2 & H)]; apply (op_fails_parts own ext op o x); try assumption; unfold op_fails.
      + do 6 right; left. split; [exact K|]. right. auto.
      + do 7 right; left. auto.
    - destruct H as (K & o & x & G1 & G2 & H). apply (op_fails_parts own ext op o x); try assumption. unfold op_fails. do 8 right. auto.
    - destruct H as (K & o & x & G1 & G2 & H). apply (op_fails_parts own ext op o x); try assumption. unfold op_fails.
      do 6 right; left. split; [exact K|]. left. eauto.
  Qed.
End Whole.

(** ** A child is kept sorted *)

Lemma fst_eq {A B} (p : A * B) a b : p = (a, b) -> a = fst p.
Proof. intros ->. reflexivity. Qed.
Ltac firsts := repeat match goal with Q : ?t = (_, _) |- _ => match t with (_, _) => fail 1 | _ => apply fst_eq in Q end end; subst.
Lemma genesis_extended_sorted o x r : op_iface_sorted o -> genesis_extended o x = Ok r -> op_iface_sorted r.
Proof.
  intros (A1 & A2 & A3 & A4 & A5 & A6 & A7) E. unfold genesis_extended in E. pairs E. apply match_ok in E. destruct E as [_ ->].
  firsts. unfold op_iface_sorted, check_occs. cbn [oi_metadata oi_globals oi_inputs oi_assigns oi_redeems oi_valencies oi_errors].
  repeat split; auto using set_extend_sorted, @ext_map_sorted.
Qed.
Lemma transition_extended_sorted n o x r : op_iface_sorted o -> transition_extended n o x = Ok r -> op_iface_sorted r.
Proof.
  intros (A1 & A2 & A3 & A4 & A5 & A6 & A7) E. unfold transition_extended in E. pairs E. apply match_ok in E. destruct E as [_ ->].
  firsts. unfold op_iface_sorted, check_occs. cbn [oi_metadata oi_globals oi_inputs oi_assigns oi_redeems oi_valencies oi_errors].
  repeat split; auto using set_extend_sorted, @ext_map_sorted.
Qed.
Lemma extension_extended_sorted n o x r : op_iface_sorted o -> extension_extended n o x = Ok r -> op_iface_sorted r.
Proof.
  intros (A1 & A2 & A3 & A4 & A5 & A6 & A7) E. unfold extension_extended in E. pairs E. apply match_ok in E. destruct E as [_ ->].
  firsts. unfold op_iface_sorted, check_occs. cbn [oi_metadata oi_globals oi_inputs oi_assigns oi_redeems oi_valencies oi_errors].
  repeat split; auto using set_extend_sorted, @ext_map_sorted.
Qed.

Lemma ext_ops_all extend (P : OpIface -> Prop) : speaks extend ->
  (forall n o x r, P o -> P x -> extend n o x = Ok r -> P r) ->
  forall own ext r, NoDup (mkeys ext) -> ext_ops extend own ext = (r, []) ->
  (forall n o, mget n own = Some o -> P o) -> (forall n o, mget n ext = Some o -> P o) ->
  forall n o, mget n r = Some o -> P o.
Proof.
  intros Sp K own ext r ND E H1 H2 n o G. pose proof (ext_ops_ok extend Sp ext own r ND E n) as J.
  destruct (mget n own) as [a|] eqn:Ga, (mget n ext) as [b|] eqn:Gb.
  - destruct J as (y & X & Y). assert (y = o) by congruence. subst y. eauto.
  - assert (a = o) by congruence. subst. eauto.
  - destruct (oi_optional b); [congruence|]. assert (b = o) by congruence. subst. eauto.
  - congruence.
Qed.

Lemma extended_sorted id_of own ext name r : iface_sorted own -> iface_sorted ext ->
  extended id_of own ext name = Ok r -> iface_sorted r.
Proof.
  intros (AM & AG & AA & AV & A0 & AT & AT' & AX & AX' & AE) (SM & SG & SA & SV & S0 & ST & ST' & SX & SX' & SE) E.
  unfold extended in E.
  destruct (map_extend MetaOverflow (ff_metadata own) (ff_metadata ext)) as [m1 e1] eqn:Q1.
  destruct (ext_map global_bad GlobalOverflow (ff_globals own) (ff_globals ext)) as [m2 e2] eqn:Q2.
  destruct (ext_map assign_bad AssignmentOverflow (ff_assigns own) (ff_assigns ext)) as [m3 e3] eqn:Q3.
  destruct (ext_map valency_bad ValencyOverflow (ff_valencies own) (ff_valencies ext)) as [m4 e4] eqn:Q4.
  destruct (match genesis_extended (ff_genesis own) (ff_genesis ext) with
            | Ok g => (g, []) | Err e => (ff_genesis own, e) | Panic => (ff_genesis own, []) end) as [g e5] eqn:Q5.
  destruct (ext_ops transition_extended (ff_transitions own) (ff_transitions ext)) as [m6 e6] eqn:Q6.
  destruct (ext_ops extension_extended (ff_extensions own) (ff_extensions ext)) as [m7 e7] eqn:Q7.
  destruct (map_extend ErrorOverflow (ff_errors own) (ff_errors ext)) as [m8 e8] eqn:Q8.
  destruct (ext_default DefaultOverride (ff_default own) (ff_default ext)) as [m9 e9] eqn:Q9.
  destruct (match ext_inherits (ff_inherits own) (id_of own) (ff_inherits ext) (id_of ext) with
            | Some l => (l, []) | None => (ff_inherits own, [InheritanceOverflow]) end) as [m10 e10] eqn:Q10.
  apply match_ok in E. destruct E as [E ->]. rewrite !app_nils in E.
  destruct E as (-> & -> & -> & -> & -> & -> & -> & -> & -> & ->).
  unfold iface_sorted. cbn [ff_metadata ff_globals ff_assigns ff_valencies ff_genesis ff_transitions ff_extensions ff_errors].
  assert (G : op_iface_sorted g).
  { destruct (genesis_extended (ff_genesis own) (ff_genesis ext)) as [g'|ge|] eqn:Qg; apply fst_eq in Q5; cbn in Q5; subst g.
    - now apply (genesis_extended_sorted (ff_genesis own) (ff_genesis ext)).
    - exact A0.
    - exact A0. }
  pose proof (ext_ops_all transition_extended op_iface_sorted transition_speaks
    (fun n o x y a _ => transition_extended_sorted n o x y a) _ _ _ (msorted_NoDup _ ST) Q6 AT' ST') as T'.
  pose proof (ext_ops_all extension_extended op_iface_sorted extension_speaks
    (fun n o x y a _ => extension_extended_sorted n o x y a) _ _ _ (msorted_NoDup _ SX) Q7 AX' SX') as X'.
  apply fst_eq in Q1, Q2, Q3, Q4, Q6, Q7, Q8. subst.
  repeat match goal with |- _ /\ _ => split end; auto using @map_extend_sorted, @ext_map_sorted, ext_ops_sorted; apply G.
Qed.
