(** * Proofs about the reports on refused extensions of interfaces *)
From Verif Require Import Base IfaceModel IfaceSpec IfaceProofs IfaceExt ReportSpec.
Local Open Scope N_scope.

Lemma fresh_len {V} (own ext : omap N V) : len (fresh own ext) <= len ext.
Proof.
  unfold fresh. induction ext as [|p ext IH]; [apply N.le_refl|]. cbn [filter]. destruct (negb _); rewrite ?len_cons; lia.
Qed.
Lemma fresh_same {V} (a b : omap N V) ext :
  (forall k, In k (mkeys ext) -> mhas k a = mhas k b) -> fresh a ext = fresh b ext.
Proof.
  unfold fresh. induction ext as [|[k v] ext IH]; intros H; [reflexivity|]. cbn [filter fst].
  rewrite (H k) by (left; reflexivity). rewrite IH; [reflexivity|]. intros q I. apply H. right. exact I.
Qed.
Lemma too_many_not_fit {V} (own ext : omap N V) : both_fit own ext -> ~ too_many own ext.
Proof. unfold both_fit, too_many. pose proof (fresh_len own ext). lia. Qed.
Lemma mhas_insert_ne {V} (k q : N) (v : V) (m : omap N V) : q <> k -> mhas q (minsert k v m) = mhas q m.
Proof. intros Ne. unfold mhas. rewrite mget_insert_ne by congruence. reflexivity. Qed.
Lemma mhas_remove_ne {V} (k q : N) (m : omap N V) : q <> k -> mhas q (mremove k m) = mhas q m.
Proof. intros Ne. unfold mhas. rewrite mget_remove_ne by congruence. reflexivity. Qed.
Lemma len_insert_new {V} (k : N) (v : V) (m : omap N V) : msorted m -> mget k m = None -> len (minsert k v m) = len m + 1.
Proof. intros S G. unfold len. rewrite length_insert by exact S. unfold mhas. rewrite G. lia. Qed.
Lemma len_insert_old {V} (k : N) (v o : V) (m : omap N V) : msorted m -> mget k m = Some o -> len (minsert k v m) = len m.
Proof. intros S G. unfold len. rewrite length_insert by exact S. unfold mhas. rewrite G. reflexivity. Qed.

Section ErrMap.
  Context {V : Type} (bad : N -> V -> V -> option ExtensionError) (full : ExtensionError).

  Definition map_fails (own ext : omap N V) (e : ExtensionError) : Prop :=
    exists n o x, mget n own = Some o /\ mget n ext = Some x /\ bad n o x = Some e.

  Lemma map_fails_cons k v own ext e : NoDup (mkeys ((k, v) :: ext)) ->
    map_fails own ((k, v) :: ext) e <-> (exists o, mget k own = Some o /\ bad k o v = Some e) \/ map_fails own ext e.
  Proof.
    intros ND. cbn in ND. apply NoDup_cons_iff in ND. destruct ND as [Nin ND].
    assert (Next : mget k ext = None) by now apply mget_None_notin.
    split.
    - intros (n & o & x & G1 & G2 & B). destruct (N.eq_dec n k) as [->|Ne].
      + rewrite mget_cons_eq in G2. apply Some_inj in G2. subst. left. eauto.
      + rewrite mget_cons_ne in G2 by exact Ne. right. exists n, o, x. auto.
    - intros [(o & G & B)|(n & o & x & G1 & G2 & B)].
      + exists k, o, v. rewrite mget_cons_eq. auto.
      + exists n, o, x. split; [exact G1|]. split; [|exact B]. rewrite mget_cons_ne; [exact G2|congruence].
  Qed.
  Lemma map_fails_insert k v own ext e : NoDup (mkeys ((k, v) :: ext)) ->
    map_fails (minsert k v own) ext e <-> map_fails own ext e.
  Proof.
    intros ND. cbn in ND. apply NoDup_cons_iff in ND. destruct ND as [Nin ND].
    assert (Next : mget k ext = None) by now apply mget_None_notin.
    split; intros (n & o & x & G1 & G2 & B); exists n, o, x; (split; [|auto]).
    - rewrite mget_insert_ne in G1; congruence.
    - rewrite mget_insert_ne; congruence.
  Qed.
  Lemma fresh_cons k v (own ext : omap N V) :
    fresh own ((k, v) :: ext) = if mhas k own then fresh own ext else (k, v) :: fresh own ext.
  Proof. unfold fresh. cbn [filter fst]. destruct (mhas k own); reflexivity. Qed.
  Lemma fresh_insert k v (own ext : omap N V) : NoDup (mkeys ((k, v) :: ext)) -> fresh (minsert k v own) ext = fresh own ext.
  Proof.
    intros ND. cbn in ND. apply NoDup_cons_iff in ND. destruct ND as [Nin ND]. apply fresh_same.
    intros q I. apply mhas_insert_ne. intros ->. contradiction.
  Qed.

  Lemma ext_map_sound ext : forall own e, msorted own -> NoDup (mkeys ext) -> In e (snd (ext_map bad full own ext)) ->
    map_fails own ext e \/ (e = full /\ too_many own ext).
  Proof.
    induction ext as [|[k v] ext IH]; intros own e S ND; cbn [ext_map].
    - intros [].
    - pose proof ND as ND'. cbn in ND'. apply NoDup_cons_iff in ND'. destruct ND' as [Nin ND'].
      unfold too_many in *. rewrite map_fails_cons, fresh_cons by exact ND.
      destruct (mget k own) as [o|] eqn:G.
      + assert (M : mhas k own = true) by (apply mhas_true; eauto). rewrite M.
        destruct (bad k o v) as [er|] eqn:B.
        * specialize (IH own e S ND'). destruct (ext_map bad full own ext) as [r errs]. cbn [snd In] in *.
          intros [<-|I]; [left; left; eauto|]. destruct (IH I) as [?|?]; [left; right; assumption|right; assumption].
        * intros I. apply IH in I; [|apply minsert_sorted, S|exact ND'].
          rewrite map_fails_insert, fresh_insert, (len_insert_old k v o own S G) in I by exact ND. tauto.
      + assert (M : mhas k own = false) by (now apply mhas_false). rewrite M, len_cons.
        destruct (N.ltb_spec (len own) U8MAX).
        * intros I. apply IH in I; [|apply minsert_sorted, S|exact ND'].
          rewrite map_fails_insert, fresh_insert, (len_insert_new k v own S G) in I by exact ND.
          destruct I as [?|[-> ?]]; [left; right; assumption|right; split; [reflexivity|lia]].
        * intros [<-|[]]. right. split; [reflexivity|lia].
  Qed.
  Lemma ext_map_full ext : forall own, msorted own -> NoDup (mkeys ext) -> too_many own ext ->
    len own <= U8MAX -> In full (snd (ext_map bad full own ext)).
  Proof.
    induction ext as [|[k v] ext IH]; intros own S ND; cbn [ext_map].
    - unfold too_many, fresh. cbn. unfold len at 2. cbn. lia.
    - pose proof ND as ND'. cbn in ND'. apply NoDup_cons_iff in ND'. destruct ND' as [Nin ND'].
      unfold too_many in *. rewrite fresh_cons. intros T L.
      destruct (mget k own) as [o|] eqn:G.
      + assert (M : mhas k own = true) by (apply mhas_true; eauto). rewrite M in T.
        destruct (bad k o v) as [er|] eqn:B.
        * specialize (IH own S ND' T L). destruct (ext_map bad full own ext) as [r errs]. cbn [snd In] in *. right. exact IH.
        * apply IH; [apply minsert_sorted, S|exact ND'| |]; rewrite ?fresh_insert, (len_insert_old k v o own S G) by exact ND; assumption.
      + assert (M : mhas k own = false) by (now apply mhas_false). rewrite M, len_cons in T.
        destruct (N.ltb_spec (len own) U8MAX); [|left; reflexivity].
        apply IH; [apply minsert_sorted, S|exact ND'| |]; rewrite ?fresh_insert, (len_insert_new k v own S G) by exact ND; lia.
  Qed.
  Lemma ext_map_complete ext : forall own e, NoDup (mkeys ext) -> both_fit own ext ->
    map_fails own ext e -> In e (snd (ext_map bad full own ext)).
  Proof.
    unfold both_fit. induction ext as [|[k v] ext IH]; intros own e ND F; cbn [ext_map].
    - intros (n & o & x & _ & G & _). discriminate.
    - pose proof ND as ND'. cbn in ND'. apply NoDup_cons_iff in ND'. destruct ND' as [Nin ND']. rewrite len_cons in F.
      pose proof (len_insert_le k v own) as Le.
      rewrite map_fails_cons by exact ND. destruct (mget k own) as [o|] eqn:G.
      + destruct (bad k o v) as [er|] eqn:B.
        * specialize (IH own e ND'). destruct (ext_map bad full own ext) as [r errs]. cbn [snd In] in *.
          intros [(o' & X & Y)|I]; [apply Some_inj in X; subst o'; left; congruence|right; apply IH; [lia|exact I]].
        * intros [(o' & X & Y)|I]; [apply Some_inj in X; subst o'; congruence|].
          apply IH; [exact ND'|lia|]. apply map_fails_insert; [exact ND|exact I].
      + intros [(o' & X & _)|I]; [discriminate|]. destruct (N.ltb_spec (len own) U8MAX); [|lia].
        apply IH; [exact ND'|lia|]. apply map_fails_insert; [exact ND|exact I].
  Qed.
End ErrMap.

Lemma map_extend_sound {V} full ext : forall (own : omap N V) e, In e (snd (map_extend full own ext)) -> e = full /\ crowded own ext.
Proof.
  unfold crowded. induction ext as [|[k v] ext IH]; intros own e; cbn [map_extend]; [intros []|]. rewrite len_cons.
  destruct (N.ltb_spec (len own) U8MAX).
  - intros I. apply IH in I. pose proof (len_insert_le k v own). destruct I. split; [assumption|lia].
  - intros [<-|[]]. split; [reflexivity|lia].
Qed.
Lemma set_extend_sound full ext : forall (own : oset N) e, In e (snd (set_extend full own ext)) -> e = full /\ crowded own ext.
Proof.
  unfold crowded. induction ext as [|k ext IH]; intros own e; cbn [set_extend]; [intros []|]. rewrite len_cons.
  destruct (N.ltb_spec (len own) U8MAX).
  - intros I. apply IH in I. pose proof (len_sinsert_le k own). destruct I. split; [assumption|lia].
  - intros [<-|[]]. split; [reflexivity|lia].
Qed.
Lemma crowded_not_fit {A B} (own : list A) (ext : list B) : both_fit own ext -> ~ crowded own ext.
Proof. unfold both_fit, crowded. lia. Qed.

Definition modifier_fails op (a b : Modifier) (e : ExtensionError) : Prop :=
  (e = OpFinal op /\ a = MFinal) \/ (e = OpNoOverride op /\ a <> MFinal /\ b = MAbstract).
Lemma modifier_errors_in op a b e : In e (modifier_errors op a b) <-> modifier_fails op a b e.
Proof.
  unfold modifier_errors, modifier_fails. destruct a, b; cbn; split; intros H;
  repeat match goal with H : _ \/ _ |- _ => destruct H | H : _ /\ _ |- _ => destruct H end; subst; try discriminate; try congruence; try contradiction; auto;
  try (right; split; [reflexivity|split; [discriminate|reflexivity]]).
Qed.
Lemma ext_default_in err own ext e : In e (snd (ext_default err own ext)) <-> e = err /\ other_default own ext.
Proof.
  unfold ext_default, other_default. destruct ext as [x|]; [destruct own as [y|]; [destruct (N.eqb_spec y x) as [->|Ne]|]|]; cbn; split.
  all: try (intros [<-|[]]; split; [reflexivity|eauto 6]).
  all: try (intros []; fail).
  all: try (intros [-> (a & b & X & Y & Z)]; try discriminate; apply Some_inj in X, Y; subst; try (destruct (Z eq_refl)); left; reflexivity).
Qed.

Definition occ_fails op part (own ext : omap N Occ) (e : ExtensionError) : Prop :=
  (exists n, e = OpOcc op part n /\ fewer own ext n) \/ (e = OpOverflow op part /\ too_many own ext).
Lemma occ_map_fails op part own ext e :
  map_fails (fun n orig occ => if oc_min occ <? oc_min orig then Some (OpOcc op part n) else None) own ext e <->
  exists n, e = OpOcc op part n /\ fewer own ext n.
Proof.
  unfold map_fails, fewer. split.
  - intros (n & o & x & G1 & G2 & B). destruct (N.ltb_spec (oc_min x) (oc_min o)); [|discriminate].
    apply Some_inj in B. exists n. split; [congruence|eauto].
  - intros (n & -> & o & x & G1 & G2 & L). exists n, o, x. split; [exact G1|]. split; [exact G2|]. apply N.ltb_lt in L. now rewrite L.
Qed.
Lemma check_occs_sound op part own ext e : msorted own -> msorted ext -> In e (snd (check_occs op part own ext)) -> occ_fails op part own ext e.
Proof.
  intros S1 S2 I. apply ext_map_sound in I; [|exact S1|now apply msorted_NoDup]. rewrite occ_map_fails in I. exact I.
Qed.
Lemma check_occs_complete op part own ext e : msorted ext -> both_fit own ext -> occ_fails op part own ext e -> In e (snd (check_occs op part own ext)).
Proof.
  intros S2 F [I|[-> I]].
  - apply ext_map_complete; [now apply msorted_NoDup|exact F|]. now apply occ_map_fails.
  - destruct (too_many_not_fit _ _ F I).
Qed.

(** ** Operations *)

Lemma match_err {E A} (l es : list E) (x : A) : match l with [] => Ok x | a :: t => Err (a :: t) end = Err es -> es = l /\ l <> [].
Proof. destruct l; intros H; [discriminate|]. injection H as <-. split; [reflexivity|discriminate]. Qed.

(** What can be wrong with an operation which is spoken of as [q] *)
Definition op_fails (kind q : OpName) (o x : OpIface) (e : ExtensionError) : Prop :=
  modifier_fails q (oi_modifier o) (oi_modifier x) e \/
  (e = OpOverflow q PMetadata /\ crowded (oi_metadata o) (oi_metadata x)) \/
  occ_fails q PGlobal (oi_globals o) (oi_globals x) e \/
  occ_fails q PAssignment (oi_assigns o) (oi_assigns x) e \/
  (e = OpOverflow q PValency /\ crowded (oi_valencies o) (oi_valencies x)) \/
  (e = OpOverflow q PError /\ crowded (oi_errors o) (oi_errors x)) \/
  (has_inputs kind /\ occ_fails q PInput (oi_inputs o) (oi_inputs x) e) \/
  (has_redeems kind /\ e = OpOverflow q PInput /\ crowded (oi_redeems o) (oi_redeems x)) \/
  (has_default kind /\ e = OpDefaultOverride q /\ other_default (oi_default o) (oi_default x)).

Ltac lists :=
  repeat match goal with Q : ?t = (?a, ?b) |- _ =>
    match t with (_, _) => fail 1 | _ => assert (b = snd t) by (rewrite Q; reflexivity); clear Q end end; subst.
Ltac sounds := 
  repeat match goal with
  | I : In _ (_ ++ _) |- _ => apply in_app_or in I; destruct I as [I|I]
  | I : In _ (modifier_errors _ _ _) |- _ => apply modifier_errors_in in I
  | I : In _ (snd (set_extend _ _ _)) |- _ => apply set_extend_sound in I
  | I : In _ (snd (ext_default _ _ _)) |- _ => apply ext_default_in in I
  | I : In _ (snd (check_occs _ _ _ _)) |- _ => apply check_occs_sound in I; [|assumption..]
  end.

Lemma genesis_err_sound o x es e : op_iface_sorted o -> op_iface_sorted x -> genesis_extended o x = Err es -> In e es ->
  op_fails GenesisOp GenesisOp o x e.
Proof.
  intros (_ & A1 & A2 & A3 & _) (_ & S1 & S2 & S3 & _) E I. unfold genesis_extended in E. pairs E.
  apply match_err in E. destruct E as [-> _]. lists. unfold op_fails. sounds; auto 12.
Qed.
Lemma transition_err_sound n o x es e : op_iface_sorted o -> op_iface_sorted x -> transition_extended n o x = Err es -> In e es ->
  op_fails (TransitionOp n) (TransitionOp n) o x e.
Proof.
  intros (_ & A1 & A2 & A3 & _) (_ & S1 & S2 & S3 & _) E I. unfold transition_extended in E. pairs E.
  apply match_err in E. destruct E as [-> _]. lists. unfold op_fails, has_inputs, has_default. sounds; auto 15.
Qed.
Lemma extension_err_sound n o x es e : op_iface_sorted o -> op_iface_sorted x -> extension_extended n o x = Err es -> In e es ->
  op_fails (ExtensionOp n) (TransitionOp n) o x e.
Proof.
  intros (_ & A1 & A2 & A3 & _) (_ & S1 & S2 & S3 & _) E I. unfold extension_extended in E. pairs E.
  apply match_err in E. destruct E as [-> _]. lists. unfold op_fails, has_redeems, has_default. sounds; auto 15.
Qed.

Definition errs_of {A} (r : result (list ExtensionError) A) : list ExtensionError := match r with Err es => es | _ => [] end.
Lemma errs_match {A} (l : list ExtensionError) (x : A) : errs_of match l with [] => Ok x | a :: t => Err (a :: t) end = l.
Proof. now destruct l. Qed.

Ltac no_room :=
  match goal with
  | F : both_fit ?a ?b, C : crowded ?a ?b |- _ => destruct (crowded_not_fit _ _ F C)
  end.

Ltac in_lists := 
  match goal with
  | H : modifier_fails _ _ _ _ |- _ => apply modifier_errors_in in H; rewrite ?in_app_iff; auto 12
  | H : occ_fails _ _ _ _ _ |- _ => apply check_occs_complete in H; [|assumption..]; rewrite ?in_app_iff; auto 12
  end.

Lemma genesis_err_complete o x e : op_iface_sorted x -> op_fits o x -> op_fails GenesisOp GenesisOp o x e ->
  In e (errs_of (genesis_extended o x)).
Proof.
  intros (_ & S1 & S2 & S3 & _) (F1 & F2 & F3 & F4 & F5 & F6 & F7) H. unfold genesis_extended.
  repeat match goal with |- context [let '(_, _) := ?t in _] => let Q := fresh "Q" in destruct t as [? ?] eqn:Q end.
  rewrite errs_match. lists. unfold op_fails in H.
  destruct H as [H|[H|[H|[H|[H|[H|[H|[H|H]]]]]]]]; try (destruct H as [? H]; try no_room); try in_lists.
  all: try match goal with H : has_inputs GenesisOp |- _ => destruct H | H : has_redeems GenesisOp |- _ => destruct H | H : has_default GenesisOp |- _ => destruct H end.
Qed.
Lemma transition_err_complete n o x e : op_iface_sorted x -> op_fits o x -> op_fails (TransitionOp n) (TransitionOp n) o x e ->
  In e (errs_of (transition_extended n o x)).
Proof.
  intros (_ & S1 & S2 & S3 & _) (F1 & F2 & F3 & F4 & F5 & F6 & F7) H. unfold transition_extended.
  repeat match goal with |- context [let '(_, _) := ?t in _] => let Q := fresh "Q" in destruct t as [? ?] eqn:Q end.
  rewrite errs_match. lists. unfold op_fails in H.
  destruct H as [H|[H|[H|[H|[H|[H|[H|[H|H]]]]]]]]; try (destruct H as [? H]; try no_room); try in_lists.
  all: try match goal with H : has_redeems (TransitionOp _) |- _ => destruct H end.
  apply (ext_default_in (OpDefaultOverride (TransitionOp n))) in H. rewrite ?in_app_iff. auto 12.
Qed.
Lemma extension_err_complete n o x e : op_iface_sorted x -> op_fits o x -> op_fails (ExtensionOp n) (TransitionOp n) o x e ->
  In e (errs_of (extension_extended n o x)).
Proof.
  intros (_ & S1 & S2 & S3 & _) (F1 & F2 & F3 & F4 & F5 & F6 & F7) H. unfold extension_extended.
  repeat match goal with |- context [let '(_, _) := ?t in _] => let Q := fresh "Q" in destruct t as [? ?] eqn:Q end.
  rewrite errs_match. lists. unfold op_fails in H.
  destruct H as [H|[H|[H|[H|[H|[H|[H|[H|H]]]]]]]]; try (destruct H as [? H]; try no_room); try in_lists.
  all: try match goal with H : has_inputs (ExtensionOp _) |- _ => destruct H end.
  - destruct H as [_ H]. no_room.
  - apply (ext_default_in (OpDefaultOverride (TransitionOp n))) in H. rewrite ?in_app_iff. auto 12.
Qed.

Section ErrOps.
  Context (extend : N -> OpIface -> OpIface -> result (list ExtensionError) OpIface).
  Context (NP : forall n o e, extend n o e <> Panic).

  Definition ops_fail (own ext : omap N OpIface) (e : ExtensionError) : Prop :=
    exists n o x, mget n own = Some o /\ mget n ext = Some x /\ In e (errs_of (extend n o x)).

  Lemma ops_fail_cons k v own ext e : NoDup (mkeys ((k, v) :: ext)) ->
    ops_fail own ((k, v) :: ext) e <-> (exists o, mget k own = Some o /\ In e (errs_of (extend k o v))) \/ ops_fail own ext e.
  Proof.
    intros ND. cbn in ND. apply NoDup_cons_iff in ND. destruct ND as [Nin ND].
    assert (Next : mget k ext = None) by now apply mget_None_notin.
    split.
    - intros (n & o & x & G1 & G2 & B). destruct (N.eq_dec n k) as [->|Ne].
      + rewrite mget_cons_eq in G2. apply Some_inj in G2. subst. left. eauto.
      + rewrite mget_cons_ne in G2 by exact Ne. right. exists n, o, x. auto.
    - intros [(o & G & B)|(n & o & x & G1 & G2 & B)].
      + exists k, o, v. rewrite mget_cons_eq. auto.
      + exists n, o, x. split; [exact G1|]. split; [|exact B]. rewrite mget_cons_ne; [exact G2|congruence].
  Qed.
  (** Only entries named in the extension matter *)
  Lemma ops_fail_same a b ext e : (forall k, In k (mkeys ext) -> mget k a = mget k b) -> ops_fail a ext e <-> ops_fail b ext e.
  Proof.
    intros H. split; intros (n & o & x & G1 & G2 & B); exists n, o, x; (split; [|auto]);
    assert (I : In n (mkeys ext)) by (apply mget_Some_in; eauto); specialize (H n I); congruence.
  Qed.

  Lemma ext_ops_sound ext : forall own e, msorted own -> NoDup (mkeys ext) -> In e (snd (ext_ops extend own ext)) ->
    ops_fail own ext e \/ (e = TransitionOverflow /\ too_many own ext).
  Proof.
    induction ext as [|[k v] ext IH]; intros own e S ND; cbn [ext_ops].
    - intros [].
    - pose proof ND as ND'. cbn in ND'. apply NoDup_cons_iff in ND'. destruct ND' as [Nin ND'].
      unfold too_many in *. rewrite ops_fail_cons, fresh_cons by exact ND.
      destruct (mget k own) as [o|] eqn:G.
      + assert (M : mhas k own = true) by (apply mhas_true; eauto). rewrite M.
        assert (Rm : forall q, In q (mkeys ext) -> mget q (mremove k own) = mget q own).
        { intros q I. apply mget_remove_ne. intros ->. contradiction. }
        assert (FR : fresh (mremove k own) ext = fresh own ext).
        { apply fresh_same. intros q I. apply mhas_remove_ne. intros ->. contradiction. }
        pose proof (len_remove_le k own) as LR.
        destruct (extend k o v) as [y|es|] eqn:B; [| |destruct (NP k o v B)].
        * intros I. apply IH in I; [|apply minsert_sorted, mremove_sorted, S|exact ND'].
          assert (L : len (minsert k y (mremove k own)) = len own).
          { transitivity (len (minsert k y own)); [|apply (len_insert_old k y o own S G)].
            f_equal. apply msorted_ext; [apply minsert_sorted, mremove_sorted, S|apply minsert_sorted, S|].
            intros q. destruct (N.eq_dec q k) as [->|Ne]; [now rewrite !mget_insert_eq|].
            now rewrite !mget_insert_ne, mget_remove_ne by congruence. }
          rewrite fresh_insert, FR, L in I by exact ND.
          destruct I as [I|I]; [|right; exact I]. left. right.
          apply (ops_fail_same (minsert k y (mremove k own)) own); [|exact I].
          intros q J. rewrite mget_insert_ne by (intros ->; contradiction). now apply Rm.
        * specialize (IH (mremove k own) e (mremove_sorted k own S) ND'). rewrite FR in IH.
          destruct (ext_ops extend (mremove k own) ext) as [r errs]. cbn [snd] in *. intros I.
          apply in_app_or in I. destruct I as [I|I].
          -- left; left. exists o. rewrite B. auto.
          -- destruct (IH I) as [J|[-> J]]; [left; right|right; split; [reflexivity|lia]].
             now apply (ops_fail_same (mremove k own) own).
      + assert (M : mhas k own = false) by (now apply mhas_false). rewrite M, len_cons.
        destruct (oi_optional v).
        * intros I. apply IH in I; [|exact S|exact ND']. destruct I as [I|[-> I]]; [tauto|right; split; [reflexivity|lia]].
        * destruct (N.ltb_spec (len own) U8MAX).
          -- intros I. apply IH in I; [|apply minsert_sorted, S|exact ND'].
             rewrite fresh_insert, (len_insert_new k v own S G) in I by exact ND.
             destruct I as [I|[-> I]]; [left; right|right; split; [reflexivity|lia]].
             apply (ops_fail_same (minsert k v own) own); [|exact I].
             intros q J. rewrite mget_insert_ne; [reflexivity|]. intros ->. contradiction.
          -- intros [<-|[]]. right. split; [reflexivity|lia].
  Qed.
  Lemma ext_ops_complete ext : forall own e, NoDup (mkeys ext) -> both_fit own ext ->
    ops_fail own ext e -> In e (snd (ext_ops extend own ext)).
  Proof.
    unfold both_fit. induction ext as [|[k v] ext IH]; intros own e ND F; cbn [ext_ops].
    - intros (n & o & x & _ & G & _). discriminate.
    - pose proof ND as ND'. cbn in ND'. apply NoDup_cons_iff in ND'. destruct ND' as [Nin ND']. rewrite len_cons in F.
      rewrite ops_fail_cons by exact ND. destruct (mget k own) as [o|] eqn:G.
      + pose proof (len_remove_le k own) as LR.
        assert (Rm : forall q, In q (mkeys ext) -> mget q (mremove k own) = mget q own).
        { intros q I. apply mget_remove_ne. intros ->. contradiction. }
        destruct (extend k o v) as [y|es|] eqn:B; [| |destruct (NP k o v B)].
        * intros [(o' & X & Y)|I]; [apply Some_inj in X; subst o'; rewrite B in Y; destruct Y|].
          apply IH; [exact ND'|pose proof (len_insert_le k y (mremove k own)); lia|].
          apply (ops_fail_same (minsert k y (mremove k own)) own); [|exact I].
          intros q J. rewrite mget_insert_ne by (intros ->; contradiction). now apply Rm.
        * specialize (IH (mremove k own) e ND'). destruct (ext_ops extend (mremove k own) ext) as [r errs]. cbn [snd] in *.
          intros [(o' & X & Y)|I]; apply in_or_app.
          -- apply Some_inj in X; subst o'. rewrite B in Y. left. exact Y.
          -- right. apply IH; [lia|]. now apply (ops_fail_same (mremove k own) own).
      + intros [(o' & X & _)|I]; [discriminate|]. destruct (oi_optional v); [apply IH; [exact ND'|lia|exact I]|].
        destruct (N.ltb_spec (len own) U8MAX); [|lia].
        apply IH; [exact ND'|pose proof (len_insert_le k v own); lia|].
        apply (ops_fail_same (minsert k v own) own); [|exact I].
        intros q J. rewrite mget_insert_ne; [reflexivity|]. intros ->. contradiction.
  Qed.
End ErrOps.
