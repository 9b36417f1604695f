(** * C85: the reports on a refused extension of an interface *)
From Verif Require Import Base IfaceModel IfaceSpec IfaceProofs IfaceExt IfaceProps ReportSpec ReportProofs ReportMain.
Local Open Scope N_scope.

Lemma errs_of_err {A} (r : result (list ExtensionError) A) es : r = Err es -> errs_of r = es.
Proof. intros ->. reflexivity. Qed.

(** Whatever is reported is so: the named entry is in both interfaces and does not fit, or a
    table would have too many entries.  What is missing: state extensions are called
    transitions ([said], [reported]). *)
Theorem C85_true_partial id_of own ext name errs e : iface_sorted own -> iface_sorted ext ->
  extended id_of own ext name = Err errs -> In e errs -> reported own ext e.
Proof.
  intros A S E I. apply parts_reported. apply (parts_sound id_of own ext name); [exact A|exact S|].
  rewrite (errs_of_err _ _ E). exact I.
Qed.
Print Assumptions C85_true_partial.

(** Everything which is wrong is reported, in one go, if there is room for both interfaces. *)
Theorem C85_all_partial id_of own ext name : iface_sorted own -> iface_sorted ext -> iface_fits own ext ->
  match extended id_of own ext name with
  | Ok _ => forall e, ~ extension_fails own ext e
  | Err errs => errs <> [] /\ forall e, In e errs <-> exists e', extension_fails own ext e' /\ e = said e'
  | Panic => False
  end.
Proof.
  intros A S F.
  assert (R : forall e, In e (errs_of (extended id_of own ext name)) <-> exists e', extension_fails own ext e' /\ e = said e').
  { intros e. split.
    - intros I. apply parts_sound in I; [|exact A|exact S]. apply parts_reported in I. destruct I as [I|[_ I]]; [exact I|].
      exfalso. apply (too_many_not_fit _ _) in I; [destruct I|]. apply F.
    - intros H. apply parts_complete; [exact S|exact F|]. exact (reported_parts id_of own ext e (or_introl H)). }
  assert (Q : extended id_of own ext name <> Panic /\ extended id_of own ext name <> Err []).
  { unfold extended. repeat match goal with |- context [let '(_, _) := ?t in _] => destruct t end.
    match goal with |- context [match ?l with [] => _ | _ => _ end] => destruct l end; split; discriminate. }
  destruct Q as [Q1 Q2].
  destruct (extended id_of own ext name) as [r|errs|]; [|split; [congruence|exact R]|congruence].
  intros e H. apply (R (said e)). eauto.
Qed.
Print Assumptions C85_all_partial.

(** Of interfaces which have no state extension in common the reports are as they should be. *)
Theorem C85_apart id_of own ext name errs e : iface_sorted own -> iface_sorted ext -> apart own ext ->
  extended id_of own ext name = Err errs -> In e errs -> extension_fails own ext e.
Proof.
  intros A S [P1 P2] E I. destruct (C85_true_partial id_of own ext name errs e A S E I) as [(e' & H & X)|[_ H]]; [|contradiction].
  destruct e'; cbn in X; subst e; try exact H;
  (destruct op as [|k|k]; cbn [said_op]; try exact H); exfalso;
  repeat match goal with p : OpPart |- _ => destruct p end; cbn in H;
  repeat match goal with H : _ \/ _ |- _ => destruct H | H : _ /\ _ |- _ => destruct H end;
  try contradiction;
  match goal with H : exists o x, _ |- _ => destruct H as (o & x & G1 & G2 & _); rewrite P1 in G2; [discriminate|congruence] end.
Qed.
Print Assumptions C85_apart.

(** A table of state is reported as too large exactly if the two have more than 255 names. *)
Theorem C85_overflow id_of own ext name : iface_sorted own -> iface_sorted ext ->
  len (ff_globals own) <= U8MAX -> len (ff_assigns own) <= U8MAX -> len (ff_valencies own) <= U8MAX ->
  (too_many (ff_globals own) (ff_globals ext) <-> exists errs, extended id_of own ext name = Err errs /\ In GlobalOverflow errs) /\
  (too_many (ff_assigns own) (ff_assigns ext) <-> exists errs, extended id_of own ext name = Err errs /\ In AssignmentOverflow errs) /\
  (too_many (ff_valencies own) (ff_valencies ext) <-> exists errs, extended id_of own ext name = Err errs /\ In ValencyOverflow errs).
Proof.
  intros A S L1 L2 L3.
  assert (T : forall errs e, extended id_of own ext name = Err errs -> In e errs -> reported own ext e).
  { intros errs e. now apply C85_true_partial. }
  pose proof (extended_errs id_of own ext name) as X.
  destruct A as (AM & AG & AA & AV & _), S as (SM & SG & SA & SV & _).
  split; [|split]; split.
  - intros M. apply errs_in. rewrite X, !in_app_iff. right; left. apply ext_map_full; auto. now apply msorted_NoDup.
  - intros (errs & E & I). destruct (T errs _ E I) as [(e' & H & Y)|[? _]]; [|discriminate]. destruct e'; try discriminate. exact H.
  - intros M. apply errs_in. rewrite X, !in_app_iff. do 2 right; left. apply ext_map_full; auto. now apply msorted_NoDup.
  - intros (errs & E & I). destruct (T errs _ E I) as [(e' & H & Y)|[? _]]; [|discriminate]. destruct e'; try discriminate. exact H.
  - intros M. apply errs_in. rewrite X, !in_app_iff. do 3 right; left. apply ext_map_full; auto. now apply msorted_NoDup.
  - intros (errs & E & I). destruct (T errs _ E I) as [(e' & H & Y)|[? _]]; [|discriminate]. destruct e'; try discriminate. exact H.
Qed.
Print Assumptions C85_overflow.

(** When many interfaces are put together the reports are about the first which cannot be
    added, against all those before it. *)
Theorem C85_chain_partial id_of name f rest errs : iface_sorted f -> Forall iface_sorted rest ->
  inherit id_of name (f :: rest) = Err errs ->
  exists before x after r, rest = before ++ x :: after /\ inherit id_of name (f :: before) = Ok r /\
    errs <> [] /\ forall e, In e errs -> reported r x e.
Proof.
  intros A S E. cbn in E. revert f A E. induction rest as [|y rest IH]; intros f A E; cbn in E; [discriminate|].
  apply Forall_cons_iff in S. destruct S as [Sy S].
  destruct (extended id_of f y name) as [r|es|] eqn:X; cbn in E.
  - destruct (IH S r (extended_sorted id_of f y name r A Sy X) E) as (before & x & after & q & -> & R & H).
    exists (y :: before), x, after, q. split; [reflexivity|]. split; [|exact H]. cbn in *. rewrite X. exact R.
  - injection E as ->. exists [], y, rest, f. split; [reflexivity|]. split; [reflexivity|]. split.
    + intros ->. revert X. unfold extended. repeat match goal with |- context [let '(_, _) := ?t in _] => destruct t end.
      match goal with |- context [match ?l with [] => _ | _ => _ end] => destruct l end; discriminate.
    + intros e I. exact (C85_true_partial id_of f y name errs e A Sy X I).
  - discriminate.
Qed.
Print Assumptions C85_chain_partial.

(** The child is kept sorted, so it can be extended again. *)
Theorem C85_again id_of own ext name r : iface_sorted own -> iface_sorted ext -> extended id_of own ext name = Ok r -> iface_sorted r.
Proof. apply extended_sorted. Qed.
Print Assumptions C85_again.

(** Interfaces the other way round: the named asset is less strict than the fungible one *)
Example C85_nonvacuous : iface_sorted ix_named /\ iface_sorted ix_burnable /\ iface_fits ix_burnable ix_named /\ apart ix_burnable ix_named /\
  extended ix_id ix_burnable ix_named 3 =
    Err [GlobalType 1; AssignmentType 10; OpNoOverride GenesisOp; OpNoOverride (TransitionOp 20)].
Proof.
  split; [exact ix_named_sorted|]. split; [exact ix_burnable_sorted|]. split; [|split; [|vm_compute; reflexivity]].
  - unfold iface_fits, op_fits, both_fit. repeat match goal with |- _ /\ _ => split end;
    try (vm_compute; discriminate); intros n o e G1 G2; cbn in G1, G2; try discriminate.
    destruct (keqb n 20); [|discriminate]. apply Some_inj in G2. rewrite <- G2.
    destruct (keqb n 21), (keqb n 22); try discriminate; apply Some_inj in G1; rewrite <- G1; repeat match goal with |- _ /\ _ => split end; vm_compute; discriminate.
  - split; [intros n _; reflexivity|]. unfold too_many. vm_compute. discriminate.
Qed.

(** An extension of the state of a contract which may not be changed *)
Definition rx_iface (m : Modifier) (ext : omap N OpIface) : FullIface :=
  {| ff_name := 1; ff_inherits := []; ff_timestamp := 5; ff_metadata := []; ff_globals := []; ff_assigns := []; ff_valencies := [];
     ff_genesis := ix_op m false [] [] [] None; ff_transitions := []; ff_extensions := ext; ff_default := None; ff_errors := [] |}.
Definition rx_own : FullIface := rx_iface MAbstract [(30, ix_op MFinal false [] [] [] None)].
Definition rx_ext : FullIface := rx_iface MOverride [(30, ix_op MOverride false [] [] [] None)].
Lemma rx_own_sorted : iface_sorted rx_own.
Proof. srt. Qed.
Lemma rx_ext_sorted : iface_sorted rx_ext.
Proof. srt. Qed.

(** A report on a state extension names a transition, which neither interface has. *)
Theorem C85_name_refuted :
  ~ (forall id_of own ext name errs e, iface_sorted own -> iface_sorted ext -> extended id_of own ext name = Err errs ->
       In e errs -> extension_fails own ext e).
Proof.
  intros H. specialize (H ix_id rx_own rx_ext 3 [OpFinal (TransitionOp 30)] (OpFinal (TransitionOp 30)) rx_own_sorted rx_ext_sorted).
  assert (E : extended ix_id rx_own rx_ext 3 = Err [OpFinal (TransitionOp 30)]) by (vm_compute; reflexivity).
  destruct (H E (or_introl eq_refl)) as (o & x & G & _). discriminate.
Qed.
Print Assumptions C85_name_refuted.

(** ... and too many state extensions are reported as too many transitions. *)
Fixpoint rx_many (k : nat) (n : N) : omap N OpIface :=
  match k with O => [] | S k' => (n, ix_op MOverride false [] [] [] None) :: rx_many k' (n + 1) end.
Lemma rx_many_keys k : forall n m, In m (mkeys (rx_many k n)) -> n <= m.
Proof. induction k as [|k IH]; intros n m; cbn; [intros []|]. intros [<-|I]; [lia|]. apply IH in I. lia. Qed.
Lemma rx_many_sorted k : forall n, msorted (rx_many k n).
Proof.
  induction k as [|k IH]; intros n; cbn; [constructor|]. constructor; [apply IH|].
  apply Forall_forall. intros [q w] I. assert (J : In q (mkeys (rx_many k (n + 1)))) by (apply in_map_iff; exists (q, w); auto).
  apply rx_many_keys in J. unfold key_lt. cbn. apply N.compare_lt_iff. lia.
Qed.
Lemma rx_many_get k : forall n m o, mget m (rx_many k n) = Some o -> o = ix_op MOverride false [] [] [] None.
Proof. induction k as [|k IH]; intros n m o; cbn; [discriminate|]. destruct (keqb m n); [intros E; now apply Some_inj in E|apply IH]. Qed.
Lemma rx_iface_sorted m k n : iface_sorted (rx_iface m (rx_many k n)).
Proof.
  unfold iface_sorted, rx_iface. cbn [ff_metadata ff_globals ff_assigns ff_valencies ff_genesis ff_transitions ff_extensions ff_errors].
  repeat match goal with |- _ /\ _ => split end; try (constructor; fail); try apply rx_many_sorted; try (intros ? ? G; discriminate);
  try (intros q o G; apply rx_many_get in G; subst o); unfold op_iface_sorted; cbn; repeat split; constructor.
Qed.
Definition rx_left : FullIface := rx_iface MAbstract (rx_many 200 0).
Definition rx_right : FullIface := rx_iface MOverride (rx_many 100 200).
Lemma rx_refused : extended ix_id rx_left rx_right 3 = Err [TransitionOverflow].
Proof. vm_compute. reflexivity. Qed.
Theorem C85_overflow_refuted :
  ~ (forall id_of own ext name errs, iface_sorted own -> iface_sorted ext -> extended id_of own ext name = Err errs ->
       In TransitionOverflow errs -> too_many (ff_transitions own) (ff_transitions ext)).
Proof.
  intros H. assert (T : too_many (ff_transitions rx_left) (ff_transitions rx_right)).
  { apply (H ix_id rx_left rx_right 3 [TransitionOverflow]).
    - apply rx_iface_sorted.
    - apply rx_iface_sorted.
    - exact rx_refused.
    - left. reflexivity. }
  revert T. unfold too_many. vm_compute. discriminate.
Qed.
Print Assumptions C85_overflow_refuted.

(** Metadata which fits can be reported as too much: a full table refuses also a name which it
    has. *)
Fixpoint rx_numbers (k : nat) (n : N) : omap N N := match k with O => [] | S k' => (n, 7) :: rx_numbers k' (n + 1) end.
Definition rx_meta (m : Modifier) (t : omap N N) : FullIface :=
  {| ff_name := 1; ff_inherits := []; ff_timestamp := 5; ff_metadata := t; ff_globals := []; ff_assigns := []; ff_valencies := [];
     ff_genesis := ix_op m false [] [] [] None; ff_transitions := []; ff_extensions := []; ff_default := None; ff_errors := [] |}.
Lemma rx_numbers_keys k : forall n m, In m (mkeys (rx_numbers k n)) -> n <= m.
Proof. induction k as [|k IH]; intros n m; cbn; [intros []|]. intros [<-|I]; [lia|]. apply IH in I. lia. Qed.
Lemma rx_numbers_sorted k : forall n, msorted (rx_numbers k n).
Proof.
  induction k as [|k IH]; intros n; cbn; [constructor|]. constructor; [apply IH|].
  apply Forall_forall. intros [q w] I. assert (J : In q (mkeys (rx_numbers k (n + 1)))) by (apply in_map_iff; exists (q, w); auto).
  apply rx_numbers_keys in J. unfold key_lt. cbn. apply N.compare_lt_iff. lia.
Qed.
Lemma rx_meta_sorted m k n : iface_sorted (rx_meta m (rx_numbers k n)).
Proof.
  unfold iface_sorted, rx_meta. cbn [ff_metadata ff_globals ff_assigns ff_valencies ff_genesis ff_transitions ff_extensions ff_errors].
  repeat match goal with |- _ /\ _ => split end; try (constructor; fail); try apply rx_numbers_sorted; try (intros ? ? G; discriminate);
  unfold op_iface_sorted; cbn; repeat split; constructor.
Qed.
Definition rx_full : FullIface := rx_meta MAbstract (rx_numbers 255 0).
Definition rx_known : FullIface := rx_meta MOverride (rx_numbers 1 0).
Lemma rx_full_refused : extended ix_id rx_full rx_known 3 = Err [MetaOverflow].
Proof. vm_compute. reflexivity. Qed.
Theorem C85_metadata_refuted :
  ~ (forall id_of own ext name errs, iface_sorted own -> iface_sorted ext -> extended id_of own ext name = Err errs ->
       In MetaOverflow errs -> too_many (ff_metadata own) (ff_metadata ext)).
Proof.
  intros H. assert (T : too_many (ff_metadata rx_full) (ff_metadata rx_known)).
  { apply (H ix_id rx_full rx_known 3 [MetaOverflow]).
    - apply rx_meta_sorted.
    - apply rx_meta_sorted.
    - exact rx_full_refused.
    - left. reflexivity. }
  revert T. unfold too_many. vm_compute. discriminate.
Qed.
Print Assumptions C85_metadata_refuted.

(** ** The types which an interface needs *)

(** The types which are listed for an interface, and which a kit must bring with it, are those
    of its metadata, of its global state where it says them, and of its structured state. *)
Theorem C41_types f id : iface_sorted f ->
  (In id (iface_types f) <->
   (exists n, mget n (ff_metadata f) = Some id) \/
   (exists n g, mget n (ff_globals f) = Some g /\ gi_sem g = Some id) \/
   (exists n a, mget n (ff_assigns f) = Some a /\ ai_state a = OiData id)).
Proof.
  intros (SM & SG & SA & _). unfold iface_types. rewrite !in_app_iff, !filter_map_In. unfold mvals.
  assert (V : forall X (m : omap N X) v, msorted m -> (In v (map snd m) <-> exists n, mget n m = Some v)).
  { intros X m v S. rewrite in_map_iff. split.
    - intros ([n w] & <- & I). exists n. now apply In_mget.
    - intros [n G]. exists (n, v). split; [reflexivity|now apply mget_In]. }
  rewrite V by exact SM. split.
  - intros [H|[(g & I & E)|(a & I & E)]]; [left; exact H| |].
    + apply V in I; [|exact SG]. destruct I as [n G]. right; left. eauto.
    + apply V in I; [|exact SA]. destruct I as [n G]. right; right. exists n, a. split; [exact G|].
      destruct (ai_state a); try discriminate. now apply Some_inj in E; subst.
  - intros [H|[(n & g & G & E)|(n & a & G & E)]]; [left; exact H| |].
    + right; left. exists g. split; [apply V; [exact SG|eauto]|exact E].
    + right; right. exists a. split; [apply V; [exact SA|eauto]|]. now rewrite E.
Qed.
Print Assumptions C41_types.
Example C41_types_nonvacuous : iface_sorted ix_burnable /\ iface_types ix_burnable = [9; 7; 8].
Proof. split; [exact ix_burnable_sorted|reflexivity]. Qed.
