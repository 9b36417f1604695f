(** Proofs for C86: the stash *)
From Verif Require Import Base StM Core HashExists MergeModel MergeSpec MergeProofs ContainerModel ContainerSpec ContainerProofs ContainerProps.
From Verif Require Import StateModel StashModel StashSpec StashProofs StashAgain StockModel AcceptSpec AcceptProofs AcceptState.
Local Open Scope N_scope.

(** ** Errors which mean that a collection is full *)

Definition only_full {A} (m : STM A) : Prop := forall s s' e, m s = (s', Err e) -> e = StashFull.

Lemma of_ret {A} (a : A) : only_full (ret a).
Proof. intros s s' e [=]. Qed.
Lemma of_put s0 : only_full (put s0).
Proof. intros s s' e [=]. Qed.
Lemma of_panic {A} : only_full (@panic _ _ A).
Proof. intros s s' e [=]. Qed.
Lemma of_grown {A} (o : option A) : only_full (grown o).
Proof. intros s s' e. unfold grown, lift. destruct o; cbn; congruence. Qed.
Lemma of_bind {A B} (m : STM A) (k : A -> STM B) : only_full m -> (forall a, only_full (k a)) -> only_full (bind m k).
Proof. intros Hm Hk s s' e. unfold bind. destruct (m s) as [s1 [a|e1|]] eqn:E; [apply Hk| |discriminate]. intros [= <- <-]. eapply Hm, E. Qed.
Lemma of_get {B} (k : MemStash -> STM B) : (forall a, only_full (k a)) -> only_full (bind get k).
Proof. intros Hk. apply of_bind; [intros s s' e [=]|exact Hk]. Qed.
Lemma of_mfor {A} (f : A -> STM unit) l : (forall a, only_full (f a)) -> only_full (mfor f l).
Proof. intros Hf. induction l as [|x l IH]; cbn [mfor]; [apply of_ret|apply of_bind; auto]. Qed.
Lemma of_attempt {A} (m : STM A) : only_full (attempt m).
Proof. intros s s' e. unfold attempt. destruct (m s) as [s1 [a|e1|]]; intros [=]. Qed.

Ltac full := repeat match goal with
  | |- only_full (ret _) => apply of_ret
  | |- only_full (put _) => apply of_put
  | |- only_full panic => apply of_panic
  | |- only_full (grown _) => apply of_grown
  | |- only_full (attempt _) => apply of_attempt
  | |- only_full (mfor _ _) => apply of_mfor; intros ?
  | |- only_full (bind get _) => apply of_get; intros ?
  | |- only_full (bind _ _) => apply of_bind; [|intros ?]
  | |- only_full (if ?b then _ else _) => destruct b
  | |- only_full (match ?x with _ => _ end) => destruct x
  end.

Lemma kit_only_full k : only_full (consume_kit k).
Proof. unfold consume_kit, consume_types, replace_lib, replace_schema, replace_iface, replace_iimpl, add_supplement. full. Qed.
Lemma attachments_only_full l : only_full (mfor (fun p => replace_attachment (fst p) (snd p) ;;! ret tt) l).
Proof. unfold replace_attachment. full. Qed.

(** ** Supplements *)

Lemma supplements_full l : forall s,
  match mfor add_supplement l s with
  | (s', Ok _) => exists m, s' = with_suppl m s
  | (s', Err e) => ~ (len (st_suppl s) + len l <= U8MAX /\
      forall x, len (or_empty (mget x (st_suppl s))) + count (fun y => keqb (su_content y) x) l <= U8MAX)
  | (s', Panic) => False
  end.
Proof.
  induction l as [|y l IH]; intros s; [exists (st_suppl s); destruct s; reflexivity|].
  cbn [mfor]. unfold bind at 1, add_supplement at 1, bind at 1, get at 1.
  assert (Gr : forall l', len l' <= len (or_empty (mget (su_content y) (st_suppl s))) + 1 ->
    match mfor add_supplement l (with_suppl (minsert (su_content y) l' (st_suppl s)) s) with
    | (s', Ok _) => exists m, s' = with_suppl m s
    | (s', Err e) => ~ (len (st_suppl s) + len (y :: l) <= U8MAX /\
      forall x, len (or_empty (mget x (st_suppl s))) + count (fun y => keqb (su_content y) x) (y :: l) <= U8MAX)
    | (s', Panic) => False
    end).
  { intros l' Hl. specialize (IH (with_suppl (minsert (su_content y) l' (st_suppl s)) s)).
    destruct (mfor add_supplement l _) as [s' [u|e|]]; [|..]; [|intros [R1 R2]|exact IH].
    - destruct IH as (m & ->). exists m. destruct s; reflexivity.
    - apply IH. cbn [st_suppl with_suppl]. split.
      + rewrite len_cons in R1. eapply N.le_trans; [apply N.add_le_mono_r, len_insert_le|]. lia.
      + intros x. specialize (R2 x). rewrite count_cons in R2. rewrite mget_insert. destruct (keqb x (su_content y)) eqn:Kx.
        * apply keqb_true in Kx as ->. rewrite keqb_refl in R2. cbn [or_empty]. lia.
        * destruct (keqb (su_content y) x); lia. }
  destruct (mget (su_content y) (st_suppl s)) as [old|] eqn:Eo.
  - unfold bind at 1, grown at 1, lift at 1, cpush at 1. destruct (len old <? U8MAX) eqn:El; cbn [ok_or].
    + unfold put at 1. apply Gr. apply sinsert_len_le.
    + apply N.ltb_ge in El. intros [_ R]. specialize (R (su_content y)). rewrite Eo, count_cons, keqb_refl in R. cbn [or_empty] in R. lia.
  - unfold bind at 1, grown at 1, lift at 1, cinsert at 1. destruct (_ <? U8MAX) eqn:El; cbn [ok_or].
    + unfold put at 1. apply Gr. cbn [or_empty]. unfold len. cbn. lia.
    + apply N.ltb_ge in El. intros [R _]. rewrite len_cons in R. unfold oset in *. lia.
Qed.

Lemma anchors_refused a b e : merge_anchors a b = Err e ->
  exists m x y, anchor_under m a = Some x /\ anchor_under m b = Some y /\
    match e with DbcMismatch => an_dbc x <> an_dbc y | UnrelatedProof => an_root y <> an_root x end.
Proof.
  assert (F : forall x y, match merge_anchor x y with
    | Ok _ => True | Err DbcMismatch => an_dbc x <> an_dbc y | Err UnrelatedProof => an_root x <> an_root y | Panic => False end).
  { intros x y. unfold merge_anchor. destruct (N.eqb_spec (an_dbc x) (an_dbc y)); cbn [negb]; [|assumption].
    destruct (N.eqb_spec (an_root x) (an_root y)); cbn [negb]; [exact Logic.I|assumption]. }
  intros E. destruct a as [t|o|t o], b as [t'|o'|t' o']; cbn [merge_anchors] in E; try discriminate.
  all: repeat match type of E with
    | context [merge_anchor ?x ?y] => pose proof (F x y); destruct (merge_anchor x y) as [?|[]|]; cbn [rmap rbind] in E
    end; try discriminate; injection E as <-; try contradiction.
  all: first [exists TapretFirst; do 2 eexists; split; [reflexivity|]; split; [reflexivity|]; congruence
             |exists OpretFirst; do 2 eexists; split; [reflexivity|]; split; [reflexivity|]; congruence].
Qed.

Lemma anchors_no_panic a b : merge_anchors a b <> Panic.
Proof. destruct (merge_anchors_spec a b) as [(_ & _ & r & E & _)|(_ & e & E)]; congruence. Qed.

Section Stash.
Context (H : Hashes) (HC : collision_free H) (K : Merkle) (c : Consignment) (Co : cons_ok H c) (s0 : MemStash).
Let cid := contract_of H c.

(** ** What is kept by all steps *)

Definition fits (s : MemStash) : Prop := forall id b, mget id (st_bundles s) = Some b -> len (b_known b) <= len (b_inputs b).

Lemma fits_kept s s' : upd (careful H) H s s' -> good H s -> fits s -> fits s'.
Proof.
  intros U Go F. destruct U; unfold fits; simpl; try exact F; intros k x E; ins; eauto.
  - apply H0.
  - eapply merge_bundle_get in H2; [apply H2|exact HC|eapply go_bundle; eassumption|apply H0].
Qed.

Definition kept {A} (m : STM A) : Prop := forall s s' r, m s = (s', r) -> good H s /\ fits s -> good H s' /\ fits s'.
Lemma by_kept {A} (m : STM A) : by_steps (careful H) H m -> kept m.
Proof.
  intros Hm s s' r E [Go F]. apply Hm in E. split; [eapply good_steps; eassumption|].
  eapply kept_steps; [exact HC|apply fits_kept|exact E|exact Go|exact F].
Qed.

Definition kit_part (s : MemStash) :=
  (st_schemata s, st_ifaces s, st_suppl s, st_types s, st_libs s, st_attachments s).

Record hinv (ne nb nw : N) (s : MemStash) : Prop := {
  hi_good : good H s /\ fits s;
  hi_ext : len (st_extensions s) <= len (st_extensions s0) + ne;
  hi_bun : len (st_bundles s) <= len (st_bundles s0) + nb;
  hi_wit : len (st_witnesses s) <= len (st_witnesses s0) + nw;
  hi_rest : kit_part s = kit_part s0
}.

Lemma genesis_runs : good H s0 /\ fits s0 -> 
  match consume_genesis H (c_genesis c) s0 with
  | (s', Ok _) => hinv 0 0 0 s' /\ st_witnesses s' = st_witnesses s0
  | (_, Err e) => stash_refuses H K s0 c e
  | (_, Panic) => False
  end.
Proof.
  intros Go. pose proof (by_kept _ (by_consume_genesis (careful H) H (c_genesis c) (co_gen _ _ Co))) as Kp.
  destruct (consume_genesis H (c_genesis c) s0) as [s' r] eqn:E. specialize (Kp _ _ _ E Go).
  unfold consume_genesis in E. unfold bind at 1, get at 1 in E.
  assert (X : exists g', (match mget (contract_id H (c_genesis c)) (st_geneses s0) with
             | Some old => lift (rmap_err StashMerge (merge_op H old (c_genesis c)))
             | None => ret (c_genesis c)
             end) s0 = (s0, Ok g')).
  { destruct (mget _ (st_geneses s0)) as [old|] eqn:Eo; [|eexists; reflexivity].
    destruct (merge_op_join H old (c_genesis c)) as (g' & Eg & _); [apply HC| |eapply go_gen; [apply Go|exact Eo]|].
    - apply (fi_genesis _ _ (go_filed _ _ (proj1 Go))) in Eo. exact Eo.
    - unfold lift. rewrite Eg. eexists. reflexivity. }
  destruct X as (g' & Eg). unfold bind at 1 in E. rewrite Eg in E.
  unfold bind at 1, replace_genesis, bind at 1, get at 1, bind at 1, grown, lift, cinsert in E.
  destruct (len (st_geneses s0) <? U8MAX) eqn:El; cbn in E; injection E as <- <-.
  - split; [|reflexivity]. constructor; [exact Kp|cbn; lia ..|reflexivity].
  - cbn. intros R. apply N.ltb_ge in El. apply hr_genesis in R. lia.
Qed.

Lemma extension_runs e ne nb nw s : In e (c_extensions c) -> ne + 1 <= len (c_extensions c) -> hinv ne nb nw s ->
  match consume_extension H e s with
  | (s', Ok _) => hinv (ne + 1) nb nw s' /\ st_witnesses s' = st_witnesses s
  | (_, Err e) => stash_refuses H K s0 c e
  | (_, Panic) => False
  end.
Proof.
  intros Hin Ln I. pose proof (hi_good _ _ _ _ I) as Go.
  pose proof (by_kept _ (by_consume_extension (careful H) H e (co_ext _ _ Co e Hin))) as Kp.
  destruct (consume_extension H e s) as [s' r] eqn:E. specialize (Kp _ _ _ E Go).
  unfold consume_extension in E. unfold bind at 1, get at 1 in E.
  assert (X : exists g', (match mget (op_id H e) (st_extensions s) with
             | Some old => lift (rmap_err StashMerge (merge_op H old e))
             | None => ret e
             end) s = (s, Ok g')).
  { destruct (mget _ (st_extensions s)) as [old|] eqn:Eo; [|eexists; reflexivity].
    destruct (merge_op_join H old e) as (g' & Eg & _); [apply HC| |eapply go_ext; [apply Go|exact Eo]|].
    - apply (fi_extension _ _ (go_filed _ _ (proj1 Go))) in Eo. exact Eo.
    - unfold lift. rewrite Eg. eexists. reflexivity. }
  destruct X as (g' & Eg). unfold bind at 1 in E. rewrite Eg in E.
  unfold bind at 1, replace_extension, bind at 1, get at 1, bind at 1, grown, lift, cinsert in E.
  destruct I as [_ I1 I2 I3 I4].
  destruct (len (st_extensions s) <? U32MAX) eqn:El; cbn in E; injection E as <- <-.
  - split; [|reflexivity]. constructor; [exact Kp| |cbn; lia ..|exact I4]. cbn.
    match goal with |- (len (@minsert ?K ?V ?O ?k ?v ?m) <= _)%N => pose proof (@len_insert_le K V O k v m) end. lia.
  - cbn. intros R. apply N.ltb_ge in El. apply hr_extension in R. lia.
Qed.

Lemma extensions_runs l : forall ne nb nw s, incl l (c_extensions c) -> ne + len l <= len (c_extensions c) -> hinv ne nb nw s ->
  match mfor (consume_extension H) l s with
  | (s', Ok _) => hinv (ne + len l) nb nw s' /\ st_witnesses s' = st_witnesses s
  | (_, Err e) => stash_refuses H K s0 c e
  | (_, Panic) => False
  end.
Proof.
  induction l as [|e l IH]; intros ne nb nw s Hi Ln I; cbn [mfor].
  - replace (ne + len (@nil Operation)) with ne by (unfold len; cbn; lia). split; [exact I|reflexivity].
  - rewrite len_cons in *. unfold bind. pose proof (extension_runs e ne nb nw s (Hi e (or_introl eq_refl))) as X.
    assert (L : ne + 1 <= len (c_extensions c)) by lia. specialize (X L I).
    destruct (consume_extension H e s) as [s1 [u|er|]]; [|exact X|exact X]. destruct X as [X1 X2].
    specialize (IH (ne + 1) nb nw s1 (fun z Hz => Hi z (or_intror Hz))).
    assert (L2 : ne + 1 + len l <= len (c_extensions c)) by lia. specialize (IH L2 X1).
    destruct (mfor _ l s1) as [s2 [u2|er|]]; [|exact IH|exact IH]. destruct IH as [Y1 Y2].
    replace (ne + (len l + 1)) with (ne + 1 + len l) by lia. split; [exact Y1|congruence].
Qed.

Let NB := total (fun wb => len (anchored_bundles (wb_bundles wb))) (c_bundles c).

Lemma bundle_runs b ne nb nw s : bundle_ok H b -> nb + 1 <= NB -> hinv ne nb nw s ->
  match consume_bundle H b s with
  | (s', Ok _) => hinv ne (nb + 1) nw s' /\ st_witnesses s' = st_witnesses s
  | (_, Err e) => stash_refuses H K s0 c e
  | (_, Panic) => False
  end.
Proof.
  intros Hb Ln I. pose proof (hi_good _ _ _ _ I) as Go.
  pose proof (by_kept _ (by_consume_bundle (careful H) H b Hb)) as Kp.
  destruct (consume_bundle H b s) as [s' r] eqn:E. specialize (Kp _ _ _ E Go).
  unfold consume_bundle in E. unfold bind at 1, get at 1 in E.
  assert (X : exists g', (match mget (bundle_id H b) (st_bundles s) with
             | Some old => lift (rmap_err StashMerge (merge_bundle H old b))
             | None => ret b
             end) s = (s, Ok g')).
  { destruct (mget _ (st_bundles s)) as [old|] eqn:Eo; [|eexists; reflexivity].
    pose proof (merge_bundle_spec H old b (fun x y => proj1 (proj2 (proj2 HC)) x y) (go_bundle _ _ (proj1 Go) _ _ Eo) (proj1 Hb)) as M.
    pose proof (proj2 Go _ _ Eo) as F. destruct (N.ltb_spec (len (b_inputs old)) (len (b_known old))); [lia|].
    destruct M as (g' & Eg & _). unfold lift. rewrite Eg. eexists. reflexivity. }
  destruct X as (g' & Eg). unfold bind at 1 in E. rewrite Eg in E.
  unfold replace_bundle, bind at 1, get at 1, bind at 1, grown, lift, cinsert in E.
  destruct I as [_ I1 I2 I3 I4].
  destruct (len (st_bundles s) <? U32MAX) eqn:El; cbn in E; injection E as <- <-.
  - split; [|reflexivity]. constructor; [exact Kp|cbn; lia| |cbn; lia|exact I4]. cbn.
    match goal with |- (len (@minsert ?K ?V ?O ?k ?v ?m) <= _)%N => pose proof (@len_insert_le K V O k v m) end. lia.
  - cbn. intros R. apply N.ltb_ge in El. apply hr_bundle in R. fold NB in R. lia.
Qed.

Definition made (p : EAnchor * Bundle) (a : CloseMethod * Anchor) : Prop :=
  fst a = dp_method (ea_dbc (fst p)) /\ an_dbc (snd a) = dp_data (ea_dbc (fst p)) /\
  mk_with K (ea_mpc (fst p)) cid (bundle_id H (snd p)) = Some (an_root (snd a)).

Lemma anchor_all_runs w l : forall ne nb nw s, (forall p, In p l -> holds c w (fst p) (snd p) /\ bundle_ok H (snd p)) ->
  nb + len l <= NB -> hinv ne nb nw s ->
  match anchor_all H K cid l s with
  | (s', Ok r) => hinv ne (nb + len l) nw s' /\ st_witnesses s' = st_witnesses s /\ Forall2 made l r
  | (_, Err e) => stash_refuses H K s0 c e
  | (_, Panic) => False
  end.
Proof.
  induction l as [|p l IH]; intros ne nb nw s Hp Ln I; cbn [anchor_all].
  - replace (nb + len (@nil (EAnchor * Bundle))) with nb by (unfold len; cbn; lia). split; [exact I|]. split; [reflexivity|constructor].
  - rewrite len_cons in *. unfold bind at 1, anchor_bundle. destruct (Hp p (or_introl eq_refl)) as [Hh Hb].
    unfold bind at 1. assert (L : nb + 1 <= NB) by lia. pose proof (bundle_runs (snd p) ne nb nw s Hb L I) as X.
    destruct (consume_bundle H (snd p) s) as [s1 [u|er|]]; [|exact X|exact X]. destruct X as [X1 X2].
    unfold bind at 1, lift at 1. destruct (mk_with K (ea_mpc (fst p)) cid (bundle_id H (snd p))) as [root|] eqn:Er; cbn [ok_or].
    2:{ cbn. exists w, (fst p), (snd p). split; [exact Hh|exact Er]. }
    unfold ret at 1. unfold bind at 1.
    specialize (IH ne (nb + 1) nw s1 (fun z Hz => Hp z (or_intror Hz))).
    assert (L2 : nb + 1 + len l <= NB) by lia. specialize (IH L2 X1).
    destruct (anchor_all H K cid l s1) as [s2 [r|er|]]; [|exact IH|exact IH]. destruct IH as (Y1 & Y2 & Y3).
    replace (nb + (len l + 1)) with (nb + 1 + len l) by lia. split; [exact Y1|]. split; [congruence|].
    constructor; [|exact Y3]. split; [reflexivity|]. split; [reflexivity|exact Er].
Qed.

Lemma anchors_runs wb r s : In wb (c_bundles c) -> Forall2 made (anchored_iter (wb_bundles wb)) r ->
  match anchors_of r s with
  | (s', Ok a) => s' = s /\ forall m y, anchor_under m a = Some y ->
      exists p, In p (anchored_iter (wb_bundles wb)) /\ made p (m, y)
  | (_, Err _) => False
  | (_, Panic) => same_method c
  end.
Proof.
  intros Hw F. destruct (wb_bundles wb) as [t|o|t o] eqn:Eb; cbn in F |- *.
  - inversion F as [|p a l l' M F' E1 E2]; subst. inversion F'; subst. destruct a as [[] a]; cbn; (split; [reflexivity|]);
      intros [] y Ey; cbn in Ey; try discriminate; apply Some_inj in Ey as <-; eauto.
  - inversion F as [|p a l l' M F' E1 E2]; subst. inversion F'; subst. destruct a as [[] a]; cbn; (split; [reflexivity|]);
      intros [] y Ey; cbn in Ey; try discriminate; apply Some_inj in Ey as <-; eauto.
  - inversion F as [|p a l l' M F' E1 E2]; subst. inversion F' as [|p2 a2 l2 l2' M2 F2 E1 E2]; subst. inversion F2; subst.
    destruct a as [m1 a], a2 as [m2 a2]. pose proof (proj1 M) as Q1. pose proof (proj1 M2) as Q2. cbn in Q1, Q2.
    destruct m1, m2; cbn.
    + exists wb, t, o. split; [exact Hw|]. split; [exact Eb|congruence].
    + split; [reflexivity|]. intros [] y Ey; cbn in Ey; apply Some_inj in Ey as <-; eauto.
    + split; [reflexivity|]. intros [] y Ey; cbn in Ey; apply Some_inj in Ey as <-; eauto.
    + exists wb, t, o. split; [exact Hw|]. split; [exact Eb|congruence].
Qed.

Lemma iter_holds wb p : In wb (c_bundles c) -> In p (anchored_iter (wb_bundles wb)) -> holds c (wb_id wb) (fst p) (snd p).
Proof.
  intros Hw Hp. exists wb. split; [exact Hw|]. split; [reflexivity|].
  destruct (wb_bundles wb) as [t|o|t o]; cbn in Hp; repeat (destruct Hp as [<-|Hp]; [cbn; constructor|]); destruct Hp.
Qed.

Lemma witness_runs wb a ne nb nw s : In wb (c_bundles c) -> nw + 1 <= len (c_bundles c) ->
  mget (wb_id wb) (st_witnesses s) = mget (wb_id wb) (st_witnesses s0) -> hinv ne nb nw s ->
  (forall m y, anchor_under m a = Some y -> exists p, In p (anchored_iter (wb_bundles wb)) /\ made p (m, y)) ->
  match consume_witness {| sw_public := wb_witness wb; sw_anchors := a |} s with
  | (s', Ok _) => hinv ne nb (nw + 1) s' /\ forall w, w <> wb_id wb -> mget w (st_witnesses s') = mget w (st_witnesses s)
  | (_, Err e) => stash_refuses H K s0 c e
  | (_, Panic) => False
  end.
Proof.
  intros Hw Ln Eu I Ha. set (w := {| sw_public := wb_witness wb; sw_anchors := a |}).
  assert (Ei : sw_id w = wb_id wb) by reflexivity.
  pose proof (hi_good _ _ _ _ I) as Go. pose proof (by_kept _ (by_consume_witness (careful H) H w)) as Kp.
  destruct (consume_witness w s) as [s' r] eqn:E. specialize (Kp _ _ _ E Go).
  unfold consume_witness in E. unfold bind at 1, get at 1 in E. rewrite Ei in E.
  assert (R : forall w', sw_id w' = wb_id wb -> replace_witness w' s = (s', r) ->
    match r with
    | Ok _ => hinv ne nb (nw + 1) s' /\ forall w, w <> wb_id wb -> mget w (st_witnesses s') = mget w (st_witnesses s)
    | Err e => stash_refuses H K s0 c e
    | Panic => False
    end).
  { intros w' Ew. unfold replace_witness, bind at 1, get at 1, bind at 1, grown, lift, cinsert. rewrite Ew.
    destruct I as [_ I1 I2 I3 I4].
    destruct (len (st_witnesses s) <? U32MAX) eqn:El; cbn; intros [= <- <-].
    - split.
      + constructor; [exact Kp|cbn; lia|cbn; lia| |exact I4]. cbn.
        match goal with |- (len (@minsert ?K ?V ?O ?k ?v ?m) <= _)%N => pose proof (@len_insert_le K V O k v m) end. lia.
      + intros x Hx. cbn. apply mget_insert_ne. congruence.
    - cbn. intros R. apply N.ltb_ge in El. apply hr_witness in R. lia. }
  destruct (mget (wb_id wb) (st_witnesses s)) as [old|] eqn:Eo.
  2:{ unfold bind at 1, ret at 1 in E. apply (R w Ei E). }
  assert (Eid : witness_id (sw_public old) = wb_id wb) by (apply (fi_witness _ _ (go_filed _ _ (proj1 Go))) in Eo; exact Eo).
  unfold bind at 1, bind at 1, lift at 1 in E.
  destruct (merge_xpub (sw_public old) (sw_public w)) as [p|e|] eqn:Em; cbn [rmap_err] in E.
  - unfold bind at 1, lift at 1 in E.
    destruct (merge_anchors (sw_anchors old) (sw_anchors w)) as [an|e|] eqn:Ea; cbn [rmap_err] in E.
    + unfold ret at 1 in E. apply (R _) in E; [exact E|]. apply merge_xpub_id in Em as [Em _].
      unfold sw_id. cbn [sw_public]. congruence.
    + injection E as <- <-. apply anchors_refused in Ea as (m & x & y & Ex & Ey & Ee). cbn [sw_anchors w] in Ey.
      destruct (Ha m y Ey) as (q & Hq & M1 & M2 & M3). cbn [fst snd] in *. cbn.
      exists (wb_id wb), (fst q), (snd q), old, x. split; [apply iter_holds; assumption|]. split; [congruence|].
      split; [rewrite <- M1; exact Ex|]. destruct e; [congruence|]. fold cid. rewrite M3. congruence.
    + destruct (anchors_no_panic _ _ Ea).
  - injection E as <- <-. cbn. exists wb, old. split; [exact Hw|]. split; [congruence|].
    pose proof (C15_merge_partial (sw_public old) (sw_public w)) as P. pose proof (C15_errors _ _ _ Em) as Ee.
    assert (El : xw_layer (sw_public old) = xw_layer (wb_witness wb) /\ pw_txid (xw_pub (sw_public old)) = pw_txid (xw_pub (wb_witness wb))).
    { unfold wb_id, witness_id in Eid. split; congruence. }
    destruct El as [El1 El2]. cbn [sw_public w] in Ee, P. rewrite El1, keqb_refl, El2 in Ee.
    assert (Ek : keqb (witness_id (sw_public old)) (witness_id (wb_witness wb)) = true) by (rewrite Eid; apply keqb_refl).
    rewrite Ek in P. change (sw_public w) with (wb_witness wb) in Em.
    destruct (pw_tx (xw_pub (sw_public old))) as [t|]; destruct (pw_tx (xw_pub (wb_witness wb))) as [t'|];
      try (destruct P as (p & P & _); congruence).
    split; [discriminate|]. split; [reflexivity|]. rewrite Ee. reflexivity.
  - exfalso. revert Em. unfold merge_xpub, merge_pub. clear.
    destruct (xw_layer _), (xw_layer _); cbn; try discriminate; destruct (xw_pub _), (xw_pub _); cbn; try discriminate;
      match goal with |- context [?x =? ?y] => destruct (x =? y) end; discriminate.
Qed.

Lemma len_iter ab : len (anchored_iter ab) = len (anchored_bundles ab).
Proof. destruct ab; reflexivity. Qed.

Lemma witness_bundle_runs wb ne nb nw s : In wb (c_bundles c) -> nb + len (anchored_bundles (wb_bundles wb)) <= NB ->
  nw + 1 <= len (c_bundles c) -> mget (wb_id wb) (st_witnesses s) = mget (wb_id wb) (st_witnesses s0) -> hinv ne nb nw s ->
  match consume_witness_bundle H K cid wb s with
  | (s', Ok _) => hinv ne (nb + len (anchored_bundles (wb_bundles wb))) (nw + 1) s' /\
      forall w, w <> wb_id wb -> mget w (st_witnesses s') = mget w (st_witnesses s)
  | (_, Err e) => stash_refuses H K s0 c e
  | (_, Panic) => same_method c
  end.
Proof.
  intros Hw Lb Lw Eu I. unfold consume_witness_bundle, bind at 1. rewrite <- len_iter in *.
  pose proof (anchor_all_runs (wb_id wb) (anchored_iter (wb_bundles wb)) ne nb nw s) as X.
  assert (Hp : forall p, In p (anchored_iter (wb_bundles wb)) -> holds c (wb_id wb) (fst p) (snd p) /\ bundle_ok H (snd p)).
  { intros p Hp. split; [apply iter_holds; assumption|]. eapply co_bundles; eassumption. }
  specialize (X Hp Lb I). destruct (anchor_all H K cid _ s) as [s1 [r|e|]]; [|exact X|contradiction].
  destruct X as (X1 & X2 & X3). unfold bind at 1. pose proof (anchors_runs wb r s1 Hw X3) as Y.
  destruct (anchors_of r s1) as [s2 [a|e|]]; [|contradiction|exact Y]. destruct Y as [-> Y].
  unfold bind at 1. rewrite <- X2 in Eu. pose proof (witness_runs wb a ne _ nw s1 Hw Lw Eu X1 Y) as Z.
  destruct (consume_witness _ s1) as [s3 [u|e|]]; [|exact Z|contradiction]. destruct Z as [Z1 Z2]. split; [exact Z1|].
  intros w Nw. rewrite (Z2 w Nw). rewrite X2. reflexivity.
Qed.

Lemma witness_bundles_runs l : forall ne nb nw s, incl l (c_bundles c) -> NoDup (map wb_id l) ->
  nb + total (fun wb => len (anchored_bundles (wb_bundles wb))) l <= NB -> nw + len l <= len (c_bundles c) ->
  (forall wb, In wb l -> mget (wb_id wb) (st_witnesses s) = mget (wb_id wb) (st_witnesses s0)) -> hinv ne nb nw s ->
  match mfor (consume_witness_bundle H K cid) l s with
  | (s', Ok _) => good H s' /\ kit_part s' = kit_part s0
  | (_, Err e) => stash_refuses H K s0 c e
  | (_, Panic) => same_method c
  end.
Proof.
  induction l as [|wb l IH]; intros ne nb nw s Hi Nd Lb Lw Eu I; cbn [mfor].
  - destruct I. split; [tauto|assumption].
  - rewrite total_cons in Lb. rewrite len_cons in Lw. cbn [map] in Nd. inversion Nd as [|x y Nx Nd']; subst.
    unfold bind at 1. pose proof (witness_bundle_runs wb ne nb nw s (Hi wb (or_introl eq_refl))) as X.
    assert (L1 : nb + len (anchored_bundles (wb_bundles wb)) <= NB) by lia.
    assert (L2 : nw + 1 <= len (c_bundles c)) by lia.
    specialize (X L1 L2 (Eu wb (or_introl eq_refl)) I).
    destruct (consume_witness_bundle H K cid wb s) as [s1 [u|e|]]; [|exact X|exact X]. destruct X as [X1 X2].
    apply (IH ne (nb + len (anchored_bundles (wb_bundles wb))) (nw + 1) s1); [|exact Nd'|lia|lia| |exact X1].
    + intros z Hz. apply Hi. right. exact Hz.
    + intros z Hz. rewrite X2; [apply Eu; right; exact Hz|]. intros E. apply Nx. rewrite <- E. apply in_map, Hz.
Qed.

Lemma kit_runs k s :
  match consume_kit k s with
  | (_, Ok _) => True
  | (_, Err e) => e = StashFull /\ ~ (room_for k s /\
      (forall id, len (match mget id (st_schemata s) with Some si => si_impls si | None => [] end) + len (k_impls k) <= U8MAX) /\
      len (st_suppl s) + len (k_suppl k) <= U8MAX /\
      forall x, len (or_empty (mget x (st_suppl s))) + count (fun y => keqb (su_content y) x) (k_suppl k) <= U8MAX)
  | (_, Panic) => ~ self_contained k s
  end.
Proof.
  pose proof (kit_no_panic k s) as Np. pose proof (kit_only_full k s) as Of.
  destruct (consume_kit k s) as [s' [u|e|]] eqn:E; [exact Logic.I| |intros Sc; apply Np in Sc; apply Sc; reflexivity].
  split; [eapply Of; reflexivity|]. intros (R1 & R2 & R3 & R4). rewrite kit_split in E. clear Of Np.
  unfold bind at 1 in E. pose proof (kit_first k s) as X. destruct (kit_defs k s) as [s1 [u|e1|]]; [subst s1|contradiction|discriminate].
  unfold bind at 1 in E. pose proof (replace_iimpls_run (k_impls k) (defined k s)) as X.
  assert (Es : st_suppl (defined k s) = st_suppl s) by reflexivity.
  assert (Ed : forall id, mget id (st_schemata (defined k s)) =
    match mget id (st_schemata s) with Some v => Some v | None => option_map (fun sc => {| si_schema := sc; si_impls := [] |}) (find (fun x => sch_id x =? id) (k_schemata k)) end).
  { intros id. unfold defined. rewrite mid_state. apply (add_new_get sch_id). }
  destruct (mfor _ (k_impls k) (defined k s)) as [s2 [u2|e2|]]; [|injection E as <- <-|discriminate].
  - destruct X as (_ & m & -> & _). unfold bind at 1 in E. pose proof (supplements_full (k_suppl k) (with_schemata m (defined k s))) as Y.
    cbn [st_suppl with_schemata] in Y. rewrite Es in Y.
    destruct (mfor add_supplement _ _) as [s3 [u3|e3|]]; [|apply Y; split; assumption|contradiction].
    destruct (import_all_sigs_ok (k_signatures k) s3) as (s4 & E4). rewrite E4 in E. discriminate.
  - destruct X as (id & si & Ei & X). specialize (R2 id). rewrite Ed in Ei. destruct (mget id (st_schemata s)) as [si'|].
    + apply Some_inj in Ei as ->. lia.
    + destruct (find _ _); [|discriminate]. apply Some_inj in Ei as <-. cbn in X. unfold len in *. cbn in *. lia.
Qed.

Lemma self_contained_part k s : kit_part s = kit_part s0 -> (self_contained k s <-> self_contained k s0).
Proof. intros E. unfold self_contained, stash_schema, iface_by_id. injection E as -> -> _ _ _ _. reflexivity. Qed.

Lemma stash_runs : good H s0 -> fits s0 -> match consume_consignment H K c s0 with
  | (_, Ok _) => True
  | (_, Err e) => stash_refuses H K s0 c e
  | (_, Panic) => same_method c \/ ~ self_contained (kit_of c) s0
  end.
Proof.
  intros Go Fi. unfold consume_consignment. change (contract_id H (c_genesis c)) with cid.
  unfold bind at 1. pose proof (genesis_runs (conj Go Fi)) as X.
  destruct (consume_genesis H (c_genesis c) s0) as [s1 [u|e|]]; [|exact X|contradiction]. destruct X as [I1 W1].
  unfold bind at 1. pose proof (extensions_runs (c_extensions c) 0 0 0 s1 (incl_refl _)) as X.
  assert (L : 0 + len (c_extensions c) <= len (c_extensions c)) by lia. specialize (X L I1).
  destruct (mfor (consume_extension H) _ s1) as [s2 [u2|e|]]; [|exact X|contradiction]. destruct X as [I2 W2].
  unfold bind at 1. pose proof (witness_bundles_runs (c_bundles c) (0 + len (c_extensions c)) 0 0 s2 (incl_refl _) (co_witnesses _ _ Co)) as X.
  assert (L1 : 0 + total (fun wb => len (anchored_bundles (wb_bundles wb))) (c_bundles c) <= NB) by (fold NB; lia).
  assert (L2 : 0 + len (c_bundles c) <= len (c_bundles c)) by lia.
  assert (Eu : forall wb, In wb (c_bundles c) -> mget (wb_id wb) (st_witnesses s2) = mget (wb_id wb) (st_witnesses s0)) by (intros; congruence).
  specialize (X L1 L2 Eu I2). clear L L1 L2 Eu.
  destruct (mfor (consume_witness_bundle H K cid) _ s2) as [s3 [u3|e|]]; [|exact X|left; exact X]. destruct X as [_ Ek].
  unfold bind at 1. pose proof (replace_attachments_run (c_attachments c) s3) as X.
  pose proof (attachments_only_full (c_attachments c) s3) as Of.
  destruct (mfor _ (c_attachments c) s3) as [s4 [u4|e|]]; [| |contradiction].
  - subst s4. assert (Es : st_schemata s3 = st_schemata s0 /\ st_suppl s3 = st_suppl s0 /\ st_types s3 = st_types s0 /\
      st_libs s3 = st_libs s0 /\ st_ifaces s3 = st_ifaces s0) by (injection Ek; intros; repeat split; assumption).
    destruct Es as (E1 & E2 & E3 & E4 & E5).
    pose proof (kit_runs (kit_of c) (attachments_done (c_attachments c) s3)) as Y.
    destruct (consume_kit (kit_of c) _) as [s5 [u5|e|]]; [exact Logic.I| |].
    + destruct Y as [-> Y]. cbn. intros R. apply Y. unfold room_for. cbn [st_schemata st_suppl st_types st_libs st_ifaces attachments_done with_attachments].
      rewrite E1, E2, E3, E4, E5. split; [exact (hr_defs _ _ R)|]. split; [exact (hr_impl _ _ R)|]. split; [exact (hr_suppl _ _ R)|exact (hr_suppls _ _ R)].
    + right. intros Sc. apply Y. clear Y. unfold self_contained, stash_schema, iface_by_id in *.
      cbn [st_schemata st_ifaces attachments_done with_attachments]. rewrite E1, E5. exact Sc.
  - assert (e = StashFull) as -> by (eapply Of; reflexivity). cbn. intros R. apply hr_attachment in R.
    assert (Es : st_attachments s3 = st_attachments s0) by (injection Ek; intros; assumption). rewrite Es in X. lia.
Qed.
End Stash.
