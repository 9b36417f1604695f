(** * Proofs about the extension of interfaces *)
From Verif Require Import Base IfaceModel IfaceSpec IfaceProofs.
Local Open Scope N_scope.

Lemma len_cons {A} (a : A) l : len (a :: l) = len l + 1.
Proof. unfold len. cbn [length]. lia. Qed.
Lemma len_insert_le {V} n (v : V) (m : omap N V) : len (minsert n v m) <= len m + 1.
Proof. unfold len. pose proof (length_insert_le n v m). lia. Qed.
Lemma len_sinsert_le n (m : oset N) : len (sinsert n m) <= len m + 1.
Proof.
  unfold len. enough (length (sinsert n m) <= S (length m))%nat by lia.
  induction m as [|k m IH]; simpl; [lia|]. destruct (N.compare n k); simpl; lia.
Qed.
Lemma mget_cons_ne {V} (n k : N) (v : V) m : n <> k -> mget n ((k, v) :: m) = mget n m.
Proof. intros Ne. cbn [mget]. now rewrite (proj2 (keqb_neq _ _) Ne). Qed.
Lemma mget_cons_eq {V} (k : N) (v : V) m : mget k ((k, v) :: m) = Some v.
Proof. cbn [mget]. now rewrite keqb_refl. Qed.

Section ExtMap.
  Context {V : Type} (bad : N -> V -> V -> option ExtensionError) (full : ExtensionError).

  Lemma ext_map_ok ext : forall own r, NoDup (mkeys ext) -> ext_map bad full own ext = (r, []) ->
    overridden own ext r /\ (forall n o e, mget n own = Some o -> mget n ext = Some e -> bad n o e = None).
  Proof.
    induction ext as [|[k v] ext IH]; intros own r ND E; cbn in E.
    - injection E as <-. split; [intros n; reflexivity|discriminate].
    - cbn in ND. apply NoDup_cons_iff in ND. destruct ND as [Nin ND].
      assert (Next : mget k ext = None) by now apply mget_None_notin.
      assert (Step : forall m', ext_map bad full (minsert k v own) ext = (m', []) ->
        (forall o, mget k own = Some o -> bad k o v = None) ->
        overridden own ((k, v) :: ext) m' /\
        (forall n o e, mget n own = Some o -> mget n ((k, v) :: ext) = Some e -> bad n o e = None)).
      { intros m' X Y. destruct (IH _ _ ND X) as [I1 I2]. split.
        - intros n. rewrite I1. destruct (N.eq_dec n k) as [->|Ne].
          + rewrite mget_cons_eq, Next, mget_insert_eq. reflexivity.
          + rewrite mget_cons_ne, mget_insert_ne by congruence. reflexivity.
        - intros n o e G1 G2. destruct (N.eq_dec n k) as [->|Ne].
          + rewrite mget_cons_eq in G2. apply Some_inj in G2. subst. auto.
          + rewrite mget_cons_ne in G2 by exact Ne. apply (I2 n o e); [|exact G2]. rewrite mget_insert_ne; congruence. }
      destruct (mget k own) as [o|] eqn:G.
      + destruct (bad k o v) as [err|] eqn:B; [destruct (ext_map bad full own ext); discriminate|].
        apply (Step r E). intros o' X. apply Some_inj in X. now subst.
      + destruct (len own <? U8MAX); [|discriminate]. apply (Step r E). discriminate.
  Qed.

  Lemma ext_map_room ext : forall own, NoDup (mkeys ext) -> both_fit own ext ->
    (forall n o e, mget n own = Some o -> mget n ext = Some e -> bad n o e = None) ->
    snd (ext_map bad full own ext) = [].
  Proof.
    unfold both_fit. induction ext as [|[k v] ext IH]; intros own ND F C; [reflexivity|]. rewrite len_cons in F.
    cbn in ND. apply NoDup_cons_iff in ND. destruct ND as [Nin ND].
    assert (Next : mget k ext = None) by now apply mget_None_notin.
    assert (R : snd (ext_map bad full (minsert k v own) ext) = []).
    { apply IH; [exact ND|pose proof (len_insert_le k v own); lia|].
      intros n o e G1 G2. destruct (N.eq_dec n k) as [->|Ne]; [congruence|].
      apply (C n o e); [rewrite mget_insert_ne in G1; congruence|rewrite mget_cons_ne; assumption]. }
    cbn. destruct (mget k own) as [o|] eqn:G.
    - rewrite (C k o v G (mget_cons_eq _ _ _)). exact R.
    - destruct (N.ltb_spec (len own) U8MAX); [exact R|lia].
  Qed.

  Lemma ext_map_sorted ext : forall own, msorted own -> msorted (fst (ext_map bad full own ext)).
  Proof.
    induction ext as [|[k v] ext IH]; intros own S; [exact S|]. cbn. destruct (mget k own).
    - destruct (bad k v0 v); [|apply IH, minsert_sorted, S]. specialize (IH own S). destruct (ext_map bad full own ext). exact IH.
    - destruct (len own <? U8MAX); [apply IH, minsert_sorted, S|exact S].
  Qed.

End ExtMap.

Section MapExtend.
  Context {V : Type} (full : ExtensionError).

  Lemma map_extend_ok ext : forall own r, NoDup (mkeys ext) -> map_extend full own ext = (r, []) -> overridden (V := V) own ext r.
  Proof.
    induction ext as [|[k v] ext IH]; intros own r ND E; cbn in E.
    - injection E as <-. intros n; reflexivity.
    - cbn in ND. apply NoDup_cons_iff in ND. destruct ND as [Nin ND].
      assert (Next : mget k ext = None) by now apply mget_None_notin.
      destruct (len own <? U8MAX); [|discriminate]. intros n. rewrite (IH _ _ ND E). destruct (N.eq_dec n k) as [->|Ne].
      + rewrite mget_cons_eq, Next, mget_insert_eq. reflexivity.
      + rewrite mget_cons_ne, mget_insert_ne by congruence. reflexivity.
  Qed.
  Lemma map_extend_room ext : forall own : omap N V, both_fit own ext -> snd (map_extend full own ext) = [].
  Proof.
    unfold both_fit. induction ext as [|[k v] ext IH]; intros own F; [reflexivity|]. rewrite len_cons in F. cbn.
    destruct (N.ltb_spec (len own) U8MAX); [|lia]. apply IH. pose proof (len_insert_le k v own). lia.
  Qed.
  Lemma map_extend_sorted ext : forall own : omap N V, msorted own -> msorted (fst (map_extend full own ext)).
  Proof.
    induction ext as [|[k v] ext IH]; intros own S; [exact S|]. cbn.
    destruct (len own <? U8MAX); [apply IH, minsert_sorted, S|exact S].
  Qed.
End MapExtend.

Lemma set_extend_ok full ext : forall own r, set_extend full own ext = (r, []) -> united own ext r.
Proof.
  induction ext as [|k ext IH]; intros own r E; cbn in E.
  - injection E as <-. intros n. cbn. tauto.
  - destruct (len own <? U8MAX); [|discriminate]. intros n. rewrite (IH _ _ E n), In_sinsert. cbn. intuition.
Qed.
Lemma set_extend_room full ext : forall own : oset N, both_fit own ext -> snd (set_extend full own ext) = [].
Proof.
  unfold both_fit. induction ext as [|k ext IH]; intros own F; [reflexivity|]. rewrite len_cons in F. cbn.
  destruct (N.ltb_spec (len own) U8MAX); [|lia]. apply IH. pose proof (len_sinsert_le k own). lia.
Qed.
Lemma set_extend_sorted full ext : forall own : oset N, ssorted own -> ssorted (fst (set_extend full own ext)).
Proof.
  induction ext as [|k ext IH]; intros own S; [exact S|]. cbn.
  destruct (len own <? U8MAX); [apply IH, sinsert_sorted, S|exact S].
Qed.

Lemma modifier_errors_nil op a b : modifier_errors op a b = [] <-> overridable a b.
Proof. unfold overridable. destruct a, b; cbn; split; intros X; try discriminate; try (split; discriminate); try reflexivity; destruct X; congruence. Qed.

Lemma ext_default_ok err own ext r : ext_default err own ext = (r, []) <-> joined_default own ext r /\ compatible_default own ext.
Proof.
  unfold ext_default, joined_default, compatible_default. destruct ext as [x|].
  - destruct own as [y|].
    + destruct (N.eqb_spec y x) as [->|Ne].
      * split; [intros E; injection E as <-; split; [reflexivity|congruence]|]. intros [-> _]. reflexivity.
      * split; [discriminate|]. intros [_ C]. destruct Ne. now apply C.
    + split; [intros E; injection E as <-; split; [reflexivity|congruence]|]. intros [-> _]. reflexivity.
  - split; [intros E; injection E as <-; split; [reflexivity|congruence]|]. intros [-> _]. reflexivity.
Qed.
Lemma ext_default_fst err own ext : compatible_default own ext -> snd (ext_default err own ext) = [].
Proof.
  intros C. assert (X : ext_default err own ext = (match ext with Some x => Some x | None => own end, [])).
  { apply ext_default_ok. split; [reflexivity|exact C]. }
  rewrite X. reflexivity.
Qed.

Lemma occ_bad_iff op part n o e : (if oc_min e <? oc_min o then Some (OpOcc op part n) else None) = None <-> refines_occ e o.
Proof. unfold refines_occ. destruct (N.ltb_spec (oc_min e) (oc_min o)); split; intros X; try discriminate; try reflexivity; lia. Qed.

Lemma check_occs_ok op part own ext r : msorted ext -> check_occs op part own ext = (r, []) ->
  overridden own ext r /\ compatible_map refines_occ own ext.
Proof.
  intros S E. destruct (ext_map_ok _ _ _ _ _ (msorted_NoDup _ S) E) as [A B]. split; [exact A|].
  intros n o e G1 G2. apply (occ_bad_iff op part n). eauto.
Qed.
Lemma check_occs_room op part own ext : msorted ext -> both_fit own ext -> compatible_map refines_occ own ext ->
  snd (check_occs op part own ext) = [].
Proof.
  intros S F C. apply ext_map_room; [now apply msorted_NoDup|exact F|]. intros n o e G1 G2. apply occ_bad_iff. eauto.
Qed.

Lemma app_nils {A} (a b : list A) : a ++ b = [] <-> a = [] /\ b = [].
Proof. destruct a; cbn; split; intros H; try discriminate; try (destruct H; congruence); auto. Qed.

Lemma match_ok {E A} (l : list E) (x r : A) : match l with [] => Ok x | a :: t => Err (a :: t) end = Ok r <-> l = [] /\ r = x.
Proof. destruct l; split; intros H; [injection H; auto|destruct H; congruence|discriminate|destruct H; discriminate]. Qed.

Ltac pairs E :=
  repeat match type of E with
  | context [let '(_, _) := ?t in _] => let Q := fresh "Q" in destruct t as [? ?] eqn:Q
  end.

Lemma genesis_extended_ok own ext r : op_iface_sorted ext -> genesis_extended own ext = Ok r ->
  joined_op own ext r /\ compatible_op own ext.
Proof.
  intros (_ & S1 & S2 & S3 & _) E. unfold genesis_extended in E. pairs E.
  apply match_ok in E. destruct E as [E ->]. rewrite !app_nils in E. destruct E as (E0 & -> & -> & -> & -> & ->).
  apply modifier_errors_nil in E0. apply set_extend_ok in Q, Q2, Q3. apply check_occs_ok in Q0, Q1; [|assumption..].
  destruct Q0, Q1. unfold joined_op, compatible_op. cbn. auto 10.
Qed.
Lemma transition_extended_ok n own ext r : op_iface_sorted ext -> transition_extended n own ext = Ok r ->
  joined_transition own ext r /\ compatible_transition ext own.
Proof.
  intros (_ & S1 & S2 & S3 & _) E. unfold transition_extended in E. pairs E.
  apply match_ok in E. destruct E as [E ->]. rewrite !app_nils in E. destruct E as (E0 & -> & -> & -> & -> & -> & -> & ->).
  apply modifier_errors_nil in E0. apply set_extend_ok in Q, Q3, Q4. apply check_occs_ok in Q0, Q1, Q2; [|assumption..].
  apply ext_default_ok in Q5. destruct Q0, Q1, Q2, Q5.
  unfold joined_transition, joined_op, compatible_transition, compatible_op. cbn. rewrite orb_true_iff. intuition.
Qed.
Lemma extension_extended_ok n own ext r : op_iface_sorted ext -> extension_extended n own ext = Ok r ->
  joined_extension own ext r /\ compatible_extension ext own.
Proof.
  intros (_ & S1 & S2 & S3 & _) E. unfold extension_extended in E. pairs E.
  apply match_ok in E. destruct E as [E ->]. rewrite !app_nils in E. destruct E as (E0 & -> & -> & -> & -> & -> & -> & ->).
  apply modifier_errors_nil in E0. apply set_extend_ok in Q, Q2, Q3, Q4. apply check_occs_ok in Q0, Q1; [|assumption..].
  apply ext_default_ok in Q5. destruct Q0, Q1, Q5.
  unfold joined_extension, joined_op, compatible_extension, compatible_op. cbn. rewrite orb_true_iff. intuition.
Qed.

Lemma snd_nil {A B} (p : A * list B) a b : p = (a, b) -> snd p = [] -> b = [].
Proof. intros -> H. exact H. Qed.

Lemma genesis_extended_room own ext : op_iface_sorted ext -> op_fits own ext -> compatible_op own ext ->
  exists r, genesis_extended own ext = Ok r.
Proof.
  intros (_ & S1 & S2 & S3 & _) (F1 & F2 & F3 & F4 & F5 & F6 & F7) (C0 & C1 & C2). unfold genesis_extended.
  match goal with |- exists r, ?t = Ok r => destruct t eqn:E end; [eauto| |];
  pairs E; apply (modifier_errors_nil GenesisOp) in C0; rewrite C0 in E;
  apply snd_nil in Q, Q0, Q1, Q2, Q3; try (apply set_extend_room; assumption); try (apply check_occs_room; assumption);
  subst; discriminate.
Qed.
Lemma transition_extended_room n own ext : op_iface_sorted ext -> op_fits own ext -> compatible_transition ext own ->
  exists r, transition_extended n own ext = Ok r.
Proof.
  intros (_ & S1 & S2 & S3 & _) (F1 & F2 & F3 & F4 & F5 & F6 & F7) ((C0 & C1 & C2) & C3 & C4). unfold transition_extended.
  match goal with |- exists r, ?t = Ok r => destruct t eqn:E end; [eauto| |];
  pairs E; apply (modifier_errors_nil (TransitionOp n)) in C0; rewrite C0 in E;
  apply snd_nil in Q, Q0, Q1, Q2, Q3, Q4, Q5; try (apply set_extend_room; assumption); try (apply check_occs_room; assumption);
  try (apply ext_default_fst; assumption); subst; discriminate.
Qed.
Lemma extension_extended_room n own ext : op_iface_sorted ext -> op_fits own ext -> compatible_extension ext own ->
  exists r, extension_extended n own ext = Ok r.
Proof.
  intros (_ & S1 & S2 & S3 & _) (F1 & F2 & F3 & F4 & F5 & F6 & F7) ((C0 & C1 & C2) & C4). unfold extension_extended.
  match goal with |- exists r, ?t = Ok r => destruct t eqn:E end; [eauto| |];
  pairs E; apply (modifier_errors_nil (TransitionOp n)) in C0; rewrite C0 in E;
  apply snd_nil in Q, Q0, Q1, Q2, Q3, Q4, Q5; try (apply set_extend_room; assumption); try (apply check_occs_room; assumption);
  try (apply ext_default_fst; assumption); subst; discriminate.
Qed.

Section ExtOps.
  Context (extend : N -> OpIface -> OpIface -> result (list ExtensionError) OpIface).
  (** failures report something *)
  Definition speaks : Prop := forall n o e, extend n o e <> Err [] /\ extend n o e <> Panic.
  Context (Sp : speaks).

  Lemma ext_ops_ok ext : forall own r, NoDup (mkeys ext) -> ext_ops extend own ext = (r, []) ->
    forall n, match mget n own, mget n ext with
              | None, None => mget n r = None
              | Some o, None => mget n r = Some o
              | None, Some e => mget n r = if oi_optional e then None else Some e
              | Some o, Some e => exists x, extend n o e = Ok x /\ mget n r = Some x
              end.
  Proof.
    induction ext as [|[k v] ext IH]; intros own r ND E; cbn in E.
    - injection E as <-. intros n. cbn. destruct (mget n own); reflexivity.
    - cbn in ND. apply NoDup_cons_iff in ND. destruct ND as [Nin ND].
      assert (Next : mget k ext = None) by now apply mget_None_notin.
      intros n. destruct (mget k own) as [o|] eqn:G.
      + destruct (extend k o v) as [x|e|] eqn:X.
        * specialize (IH _ _ ND E n). destruct (N.eq_dec n k) as [->|Ne].
          -- rewrite mget_insert_eq, Next in IH. rewrite mget_cons_eq, G. exists x. auto.
          -- rewrite mget_insert_ne, mget_remove_ne in IH by congruence. now rewrite mget_cons_ne by exact Ne.
        * destruct (ext_ops extend (mremove k own) ext) as [r' errs]. injection E as _ E.
          destruct e; [destruct (proj1 (Sp k o v) X)|discriminate].
        * destruct (proj2 (Sp k o v) X).
      + destruct (oi_optional v) eqn:Opt.
        * specialize (IH _ _ ND E n). destruct (N.eq_dec n k) as [->|Ne].
          -- rewrite mget_cons_eq, G, Opt. rewrite G, Next in IH. exact IH.
          -- now rewrite mget_cons_ne by exact Ne.
        * destruct (len own <? U8MAX); [|discriminate]. specialize (IH _ _ ND E n). destruct (N.eq_dec n k) as [->|Ne].
          -- rewrite mget_cons_eq, G, Opt. rewrite mget_insert_eq, Next in IH. exact IH.
          -- rewrite mget_insert_ne in IH by congruence. now rewrite mget_cons_ne by exact Ne.
  Qed.

  Lemma len_remove_le {V} n (m : omap N V) : len (mremove n m) <= len m.
  Proof.
    unfold len, mremove. enough (length (filter (fun p => negb (keqb n (fst p))) m) <= length m)%nat by lia.
    induction m as [|p m IH]; simpl; [lia|]. destruct (negb _); simpl; lia.
  Qed.

  Lemma ext_ops_room ext : forall own, NoDup (mkeys ext) -> both_fit own ext ->
    (forall n o e, mget n own = Some o -> mget n ext = Some e -> exists x, extend n o e = Ok x) ->
    snd (ext_ops extend own ext) = [].
  Proof.
    unfold both_fit. induction ext as [|[k v] ext IH]; intros own ND F C; [reflexivity|]. rewrite len_cons in F.
    cbn in ND. apply NoDup_cons_iff in ND. destruct ND as [Nin ND].
    assert (Next : mget k ext = None) by now apply mget_None_notin.
    cbn. destruct (mget k own) as [o|] eqn:G.
    - destruct (C k o v G (mget_cons_eq _ _ _)) as [x X]. rewrite X. apply IH; [exact ND| |].
      + pose proof (len_insert_le k x (mremove k own)). pose proof (len_remove_le k own). lia.
      + intros n o' e G1 G2. destruct (N.eq_dec n k) as [->|Ne]; [congruence|].
        rewrite mget_insert_ne, mget_remove_ne in G1 by congruence. apply (C n o' e G1). now rewrite mget_cons_ne by exact Ne.
    - destruct (oi_optional v).
      + apply IH; [exact ND|lia|]. intros n o' e G1 G2. destruct (N.eq_dec n k) as [->|Ne]; [congruence|].
        apply (C n o' e G1). now rewrite mget_cons_ne by exact Ne.
      + destruct (N.ltb_spec (len own) U8MAX); [|lia]. apply IH; [exact ND|pose proof (len_insert_le k v own); lia|].
        intros n o' e G1 G2. destruct (N.eq_dec n k) as [->|Ne]; [congruence|].
        rewrite mget_insert_ne in G1 by congruence. apply (C n o' e G1). now rewrite mget_cons_ne by exact Ne.
  Qed.

  Lemma ext_ops_sorted ext : forall own, msorted own -> msorted (fst (ext_ops extend own ext)).
  Proof.
    induction ext as [|[k v] ext IH]; intros own S; [exact S|]. cbn. destruct (mget k own).
    - destruct (extend k o v); [apply IH, minsert_sorted, mremove_sorted, S| |apply IH, mremove_sorted, S].
      specialize (IH (mremove k own) (mremove_sorted k own S)). destruct (ext_ops extend (mremove k own) ext). exact IH.
    - destruct (oi_optional v); [now apply IH|]. destruct (len own <? U8MAX); [apply IH, minsert_sorted, S|exact S].
  Qed.
End ExtOps.

Lemma transition_speaks : speaks transition_extended.
Proof.
  intros n o e. unfold transition_extended.
  repeat match goal with |- context [let '(_, _) := ?t in _] => destruct t end.
  match goal with |- context [match ?l with [] => _ | _ => _ end] => destruct l end; split; discriminate.
Qed.
Lemma extension_speaks : speaks extension_extended.
Proof.
  intros n o e. unfold extension_extended.
  repeat match goal with |- context [let '(_, _) := ?t in _] => destruct t end.
  match goal with |- context [match ?l with [] => _ | _ => _ end] => destruct l end; split; discriminate.
Qed.
Lemma genesis_speaks o e : genesis_extended o e <> Err [] /\ genesis_extended o e <> Panic.
Proof.
  unfold genesis_extended.
  repeat match goal with |- context [let '(_, _) := ?t in _] => destruct t end.
  match goal with |- context [match ?l with [] => _ | _ => _ end] => destruct l end; split; discriminate.
Qed.

Lemma vec_extend_ok xs : forall l r, vec_extend l xs = Some r -> r = l ++ xs.
Proof.
  induction xs as [|x xs IH]; intros l r E; cbn in E; [injection E as <-; now rewrite app_nil_r|].
  unfold vec_push in E. destruct (len l <? U8MAX); [|discriminate]. rewrite (IH _ _ E), <- app_assoc. reflexivity.
Qed.
Lemma len_app {A} (a b : list A) : len (a ++ b) = len a + len b.
Proof. unfold len. rewrite app_length. lia. Qed.
Lemma vec_extend_room xs : forall l, len l + len xs <= U8MAX -> vec_extend l xs = Some (l ++ xs).
Proof.
  induction xs as [|x xs IH]; intros l F; cbn; [now rewrite app_nil_r|]. rewrite len_cons in F.
  unfold vec_push. destruct (N.ltb_spec (len l) U8MAX); [|lia]. rewrite IH; [now rewrite <- app_assoc|].
  rewrite len_app, len_cons. unfold len at 2. cbn. lia.
Qed.
Lemma ext_inherits_ok own a ext b r : ext_inherits own a ext b = Some r -> r = own ++ [a] ++ ext ++ [b].
Proof.
  unfold ext_inherits, vec_push. destruct (len own <? U8MAX); [|discriminate].
  destruct (vec_extend (own ++ [a]) ext) eqn:E; [|discriminate]. destruct (len l <? U8MAX); [|discriminate].
  intros X. injection X as <-. apply vec_extend_ok in E. subst. now rewrite <- !app_assoc.
Qed.
Lemma ext_inherits_room own a ext b : len own + len ext + 2 <= U8MAX -> exists r, ext_inherits own a ext b = Some r.
Proof.
  intros F. unfold ext_inherits, vec_push. destruct (N.ltb_spec (len own) U8MAX); [|lia].
  rewrite vec_extend_room by (rewrite len_app, len_cons; unfold len at 2; cbn; lia).
  destruct (N.ltb_spec (len ((own ++ [a]) ++ ext)) U8MAX); [eauto|].
  rewrite !len_app, len_cons in *. unfold len at 2 in H0. cbn in H0. lia.
Qed.

Lemma global_bad_iff n o e : global_bad n o e = None <-> refines_global e o.
Proof.
  unfold global_bad, refines_global. destruct o as [[x|] [|] ?], e as [[y|] [|] ?]; cbn; try (destruct (N.eqb_spec x y) as [->|Ne]); cbn;
  split; intros H; try discriminate; try reflexivity; try (split; [auto|congruence]); destruct H as [[H|H] R]; try discriminate;
  try (specialize (R eq_refl); discriminate); injection H; congruence.
Qed.
Lemma is_superset_iff a b : is_superset a b = true <-> refines_state b a.
Proof.
  unfold refines_state. destruct a, b; cbn; try rewrite N.eqb_eq; split; intros H; try discriminate; try reflexivity; auto;
  try (subst; auto; fail); try (right; right; split; [reflexivity|eauto]; fail).
  all: try (destruct H as [H|[H|[H [y Y]]]]; try discriminate).
  injection H. congruence.
Qed.
Lemma assign_bad_iff n o e : assign_bad n o e = None <-> refines_assign e o.
Proof.
  unfold assign_bad, refines_assign. rewrite <- is_superset_iff.
  destruct (is_superset (ai_state o) (ai_state e)); cbn; [|split; [discriminate|intros [? _]; discriminate]].
  destruct (ai_required o), (ai_required e); cbn; destruct (ai_public o), (ai_public e); cbn;
  split; intros H; try discriminate; try reflexivity; try (split; [reflexivity|split; auto; discriminate]);
  destruct H as [_ [H1 H2]]; try (specialize (H1 eq_refl); discriminate); try (specialize (H2 eq_refl); discriminate).
Qed.
Lemma valency_bad_iff n o e : valency_bad n o e = None <-> (o = true -> e = true).
Proof. unfold valency_bad. destruct o, e; cbn; split; intros H; try discriminate; auto. discriminate (H eq_refl). Qed.

(** ** The whole interface *)

Section Extended.
  Context (id_of : FullIface -> N).

  Lemma extended_ok own ext name r : iface_sorted ext -> extended id_of own ext name = Ok r ->
    joined id_of own ext name r /\ compatible own ext.
  Proof.
    intros (SM & SG & SA & SV & S0 & ST & ST' & SX & SX' & SE) E. unfold extended in E.
    destruct (map_extend MetaOverflow (ff_metadata own) (ff_metadata ext)) as [m1 e1] eqn:Q1.
    destruct (ext_map global_bad GlobalOverflow (ff_globals own) (ff_globals ext)) as [m2 e2] eqn:Q2.
    destruct (ext_map assign_bad AssignmentOverflow (ff_assigns own) (ff_assigns ext)) as [m3 e3] eqn:Q3.
    destruct (ext_map valency_bad ValencyOverflow (ff_valencies own) (ff_valencies ext)) as [m4 e4] eqn:Q4.
    pose proof (genesis_speaks (ff_genesis own) (ff_genesis ext)) as [GS1 GS2].
    pose proof (genesis_extended_ok (ff_genesis own) (ff_genesis ext)) as GO.
    destruct (genesis_extended (ff_genesis own) (ff_genesis ext)) as [g|ge|]; [| |congruence].
    2: { destruct (ext_ops transition_extended (ff_transitions own) (ff_transitions ext)),
                  (ext_ops extension_extended (ff_extensions own) (ff_extensions ext)),
                  (map_extend ErrorOverflow (ff_errors own) (ff_errors ext)),
                  (ext_default DefaultOverride (ff_default own) (ff_default ext)),
                  (ext_inherits (ff_inherits own) (id_of own) (ff_inherits ext) (id_of ext));
         apply match_ok in E; destruct E as [E _]; rewrite !app_nils in E; destruct E as (_ & _ & _ & _ & -> & _); congruence. }
    destruct (ext_ops transition_extended (ff_transitions own) (ff_transitions ext)) as [m6 e6] eqn:Q6.
    destruct (ext_ops extension_extended (ff_extensions own) (ff_extensions ext)) as [m7 e7] eqn:Q7.
    destruct (map_extend ErrorOverflow (ff_errors own) (ff_errors ext)) as [m8 e8] eqn:Q8.
    destruct (ext_default DefaultOverride (ff_default own) (ff_default ext)) as [m9 e9] eqn:Q9.
    destruct (ext_inherits (ff_inherits own) (id_of own) (ff_inherits ext) (id_of ext)) as [l|] eqn:Q10;
      apply match_ok in E; destruct E as [E ->]; rewrite !app_nils in E;
      destruct E as (-> & -> & -> & -> & _ & -> & -> & -> & -> & E10); [|discriminate].
    destruct (GO g S0 eq_refl) as [G1 G2].
    apply map_extend_ok in Q1, Q8; try (apply msorted_NoDup; assumption).
    apply ext_map_ok in Q2, Q3, Q4; try (apply msorted_NoDup; assumption).
    destruct Q2 as [A2 B2], Q3 as [A3 B3], Q4 as [A4 B4].
    pose proof (ext_ops_ok _ transition_speaks _ _ _ (msorted_NoDup _ ST) Q6) as J6.
    pose proof (ext_ops_ok _ extension_speaks _ _ _ (msorted_NoDup _ SX) Q7) as J7.
    apply ext_default_ok in Q9. destruct Q9 as [A9 B9]. apply ext_inherits_ok in Q10.
    assert (C6 : joined_ops joined_transition (ff_transitions own) (ff_transitions ext) m6 /\
                 compatible_map compatible_transition (ff_transitions own) (ff_transitions ext)).
    { split.
      - intros n. specialize (J6 n). destruct (mget n (ff_transitions own)) as [o|], (mget n (ff_transitions ext)) as [e|] eqn:Ge; try exact J6.
        destruct J6 as [x [X Gx]]. exists x. split; [exact Gx|]. apply (transition_extended_ok n o e x); eauto.
      - intros n o e Go Ge. specialize (J6 n). rewrite Go, Ge in J6. destruct J6 as [x [X _]].
        apply (transition_extended_ok n o e x); eauto. }
    assert (C7 : joined_ops joined_extension (ff_extensions own) (ff_extensions ext) m7 /\
                 compatible_map compatible_extension (ff_extensions own) (ff_extensions ext)).
    { split.
      - intros n. specialize (J7 n). destruct (mget n (ff_extensions own)) as [o|], (mget n (ff_extensions ext)) as [e|] eqn:Ge; try exact J7.
        destruct J7 as [x [X Gx]]. exists x. split; [exact Gx|]. apply (extension_extended_ok n o e x); eauto.
      - intros n o e Go Ge. specialize (J7 n). rewrite Go, Ge in J7. destruct J7 as [x [X _]].
        apply (extension_extended_ok n o e x); eauto. }
    destruct C6 as [J6' C6], C7 as [J7' C7]. split.
    - unfold joined. cbn. auto 20.
    - unfold compatible.
      split; [intros n o e Go Ge; apply (global_bad_iff n); eauto|].
      split; [intros n o e Go Ge; apply (assign_bad_iff n); eauto|].
      split; [intros n o e Go Ge; apply (valency_bad_iff n); eauto|]. auto.
  Qed.

  Lemma extended_room own ext name : iface_sorted ext -> iface_fits own ext -> compatible own ext ->
    exists r, extended id_of own ext name = Ok r.
  Proof.
    intros (SM & SG & SA & SV & S0 & ST & ST' & SX & SX' & SE) (F1 & F2 & F3 & F4 & F5 & F6 & F6' & F7 & F7' & F8 & F10)
           (C2 & C3 & C4 & C5 & C6 & C7 & C9).
    assert (R1 := map_extend_room MetaOverflow _ _ F1).
    assert (R2 : snd (ext_map global_bad GlobalOverflow (ff_globals own) (ff_globals ext)) = []).
    { apply ext_map_room; [now apply msorted_NoDup|exact F2|]. intros n o e Go Ge. apply global_bad_iff. eauto. }
    assert (R3 : snd (ext_map assign_bad AssignmentOverflow (ff_assigns own) (ff_assigns ext)) = []).
    { apply ext_map_room; [now apply msorted_NoDup|exact F3|]. intros n o e Go Ge. apply assign_bad_iff. eauto. }
    assert (R4 : snd (ext_map valency_bad ValencyOverflow (ff_valencies own) (ff_valencies ext)) = []).
    { apply ext_map_room; [now apply msorted_NoDup|exact F4|]. intros n o e Go Ge. apply valency_bad_iff. apply (C4 n); assumption. }
    destruct (genesis_extended_room _ _ S0 F5 C5) as [g R5].
    assert (R6 : snd (ext_ops transition_extended (ff_transitions own) (ff_transitions ext)) = []).
    { apply ext_ops_room; [now apply msorted_NoDup|exact F6|]. intros n o e Go Ge. apply transition_extended_room; eauto. }
    assert (R7 : snd (ext_ops extension_extended (ff_extensions own) (ff_extensions ext)) = []).
    { apply ext_ops_room; [now apply msorted_NoDup|exact F7|]. intros n o e Go Ge. apply extension_extended_room; eauto. }
    assert (R8 := map_extend_room ErrorOverflow _ _ F8).
    assert (R9 := ext_default_fst DefaultOverride _ _ C9).
    destruct (ext_inherits_room _ (id_of own) _ (id_of ext) F10) as [l R10].
    unfold extended. rewrite R5, R10.
    repeat match goal with R : snd ?t = [] |- context [?t] => destruct t as [? ?]; cbn in R; subst end.
    cbn. eauto.
  Qed.

  Lemma extended_ends own ext name : extended id_of own ext name <> Panic.
  Proof.
    unfold extended.
    repeat match goal with |- context [let '(_, _) := ?t in _] => destruct t end.
    match goal with |- context [match ?l with [] => _ | _ => _ end] => destruct l end; discriminate.
  Qed.
End Extended.
