(** * Proofs about the stash *)
From Verif Require Import Base StM Core HashExists ContainerModel ContainerSpec ContainerProofs.
From Verif Require Import MergeSpec MergeProofs StashModel StashSpec.
Local Open Scope N_scope.

Lemma cinsert_inv {K V} `{OrdKey K} max k (v : V) m m' : cinsert max k v m = Some m' ->
  m' = minsert k v m /\ len m < max.
Proof. unfold cinsert. destruct (len m <? max) eqn:E; [|discriminate]. intros [= <-]. split; [reflexivity|]. apply N.ltb_lt, E. Qed.

Lemma cpush_inv {K} `{OrdKey K} max k s s' : cpush max k s = Some s' -> s' = sinsert k s /\ len s < max.
Proof. unfold cpush. destruct (len s <? max) eqn:E; [|discriminate]. intros [= <-]. split; [reflexivity|]. apply N.ltb_lt, E. Qed.

Ltac ins := match goal with
  | H : context [mget ?k (minsert ?k' _ _)] |- _ => rewrite mget_insert in H;
      let K := fresh "K" in destruct (keqb k k') eqn:K;
      [apply keqb_true in K; subst; apply Some_inj in H; subst|]
  end.

(** ** Single changes *)

(** What is known about the operations and bundles coming in *)
Record Guard := { g_op : Operation -> Prop; g_ext : Operation -> Prop; g_bundle : Bundle -> Prop }.

Section Steps.
Context (G : Guard).

(** What a call other than setting a trust level may do to the stash, in one step *)
Inductive upd (H : Hashes) (s : MemStash) : MemStash -> Prop :=
| upd_schema sc : mget (sch_id sc) (st_schemata s) = None ->
    upd H s (with_schemata (minsert (sch_id sc) {| si_schema := sc; si_impls := [] |} (st_schemata s)) s)
| upd_iface i : mget (if_id i) (st_ifaces s) = None ->
    upd H s (with_ifaces (minsert (if_id i) i (st_ifaces s)) s)
| upd_impl im si i : mget (im_schema im) (st_schemata s) = Some si ->
    mget (im_iface im) (st_ifaces s) = Some i ->
    upd H s (with_schemata (minsert (im_schema im)
               {| si_schema := si_schema si; si_impls := minsert (if_name i) im (si_impls si) |}
               (st_schemata s)) s)
| upd_suppl_new x : mget (su_content x) (st_suppl s) = None ->
    upd H s (with_suppl (minsert (su_content x) [x] (st_suppl s)) s)
| upd_suppl_more x l : mget (su_content x) (st_suppl s) = Some l ->
    upd H s (with_suppl (minsert (su_content x) (sinsert x l) (st_suppl s)) s)
| upd_genesis_new g : g_op G g -> mget (contract_id H g) (st_geneses s) = None ->
    upd H s (with_geneses (minsert (contract_id H g) g (st_geneses s)) s)
| upd_genesis_merge g old g' : g_op G g -> mget (contract_id H g) (st_geneses s) = Some old ->
    merge_op H old g = Ok g' ->
    upd H s (with_geneses (minsert (contract_id H g') g' (st_geneses s)) s)
| upd_extension_new e : g_ext G e -> mget (op_id H e) (st_extensions s) = None ->
    upd H s (with_extensions (minsert (op_id H e) e (st_extensions s)) s)
| upd_extension_merge e old e' : g_ext G e -> mget (op_id H e) (st_extensions s) = Some old ->
    merge_op H old e = Ok e' ->
    upd H s (with_extensions (minsert (op_id H e') e' (st_extensions s)) s)
| upd_bundle_new b : g_bundle G b -> mget (bundle_id H b) (st_bundles s) = None ->
    upd H s (with_bundles (minsert (bundle_id H b) b (st_bundles s)) s)
| upd_bundle_merge b old b' : g_bundle G b -> mget (bundle_id H b) (st_bundles s) = Some old ->
    merge_bundle H old b = Ok b' ->
    upd H s (with_bundles (minsert (bundle_id H b') b' (st_bundles s)) s)
| upd_witness_new w : mget (sw_id w) (st_witnesses s) = None ->
    upd H s (with_witnesses (minsert (sw_id w) w (st_witnesses s)) s)
| upd_witness_merge w old p a : mget (sw_id w) (st_witnesses s) = Some old ->
    merge_xpub (sw_public old) (sw_public w) = Ok p ->
    merge_anchors (sw_anchors old) (sw_anchors w) = Ok a ->
    upd H s (with_witnesses (minsert (sw_id {| sw_public := p; sw_anchors := a |})
               {| sw_public := p; sw_anchors := a |} (st_witnesses s)) s)
| upd_attachment id data : upd H s (with_attachments (minsert id data (st_attachments s)) s)
| upd_type id data : upd H s (with_types (minsert id data (st_types s)) s)
| upd_lib id data : upd H s (with_libs (minsert id data (st_libs s)) s)
| upd_identity id : mget id (st_identities s) = None ->
    upd H s (with_identities (minsert id trust_default (st_identities s)) s)
| upd_sigs c acc :
    (forall id, mget id acc = signature s c id \/
                (should_accept (get_trust s id) = true /\ mget id acc <> None)) ->
    (forall old, mget c (st_sigs s) = Some old -> msorted old -> msorted acc) ->
    (mget c (st_sigs s) = None -> msorted acc /\ acc <> []) ->
    upd H s (with_sigs (minsert c acc (st_sigs s)) s)
| upd_seal x : upd H s (with_seals (sinsert x (st_seals s)) s).

Inductive steps (H : Hashes) (s : MemStash) : MemStash -> Prop :=
| steps_refl : steps H s s
| steps_cons s1 s2 : upd H s s1 -> steps H s1 s2 -> steps H s s2.

Lemma steps_one H s s' : upd H s s' -> steps H s s'.
Proof. intros U. eapply steps_cons; [exact U|constructor]. Qed.

Lemma steps_trans H s s1 s2 : steps H s s1 -> steps H s1 s2 -> steps H s s2.
Proof. induction 1; [auto|]. intros. eapply steps_cons; eauto. Qed.

(** Whatever is kept by a single change is kept by all. *)
Lemma steps_keep H (P : MemStash -> Prop) s s' :
  (forall a b, upd H a b -> P a -> P b) -> steps H s s' -> P s -> P s'.
Proof. intros K. induction 1; eauto. Qed.

Definition by_steps (H : Hashes) {A} (m : STM A) : Prop := forall s s' r, m s = (s', r) -> steps H s s'.

Lemma by_ret H {A} (a : A) : by_steps H (ret a).
Proof. intros s s' r [= <- <-]. constructor. Qed.
Lemma by_lift H {A} (x : result StashError A) : by_steps H (lift x).
Proof. intros s s' r [= <- <-]. constructor. Qed.
Lemma by_bind H {A B} (m : STM A) (k : A -> STM B) :
  by_steps H m -> (forall a, by_steps H (k a)) -> by_steps H (bind m k).
Proof.
  intros Hm Hk s s' r. unfold bind. destruct (m s) as [s1 [a|e|]] eqn:E; intros E2.
  - eapply steps_trans; [eapply Hm, E|eapply Hk, E2].
  - injection E2 as <- <-. eapply Hm, E.
  - injection E2 as <- <-. eapply Hm, E.
Qed.
Lemma by_mfor H {A} (f : A -> STM unit) l : (forall a, In a l -> by_steps H (f a)) -> by_steps H (mfor f l).
Proof.
  induction l as [|x l IH]; intros Hf; simpl; [apply by_ret|]. apply by_bind; [apply Hf; left; reflexivity|].
  intros _. apply IH. intros y Hy. apply Hf. right; exact Hy.
Qed.
Lemma by_attempt H {A} (m : STM A) : by_steps H m -> by_steps H (attempt m).
Proof. intros Hm s s' r. unfold attempt. destruct (m s) as [s1 [a|e|]] eqn:E; intros [= <- <-]; eapply Hm, E. Qed.

(** ** Every function of the stash is made of such changes. *)

Ltac grow E m := match type of E with
  | context [ok_or StashFull ?o] => destruct o as [m|] eqn:?
  end.

Lemma by_replace_schema H sc : by_steps H (replace_schema sc).
Proof.
  intros s s' r E. unfold replace_schema, bind, get, grown, lift, put, ret in E.
  destruct (mhas (sch_id sc) (st_schemata s)) eqn:Eh; [injection E as <- <-; constructor|].
  destruct (cinsert _ _ _ _) as [m|] eqn:Ec; simpl in E; [|injection E as <- <-; constructor].
  apply cinsert_inv in Ec as [-> _]. injection E as <- <-. apply steps_one, upd_schema, mhas_false, Eh.
Qed.

Lemma by_replace_iface H i : by_steps H (replace_iface i).
Proof.
  intros s s' r E. unfold replace_iface, bind, get, grown, lift, put, ret in E.
  destruct (mhas (if_id i) (st_ifaces s)) eqn:Eh; [injection E as <- <-; constructor|].
  destruct (cinsert _ _ _ _) as [m|] eqn:Ec; simpl in E; [|injection E as <- <-; constructor].
  apply cinsert_inv in Ec as [-> _]. injection E as <- <-. apply steps_one, upd_iface, mhas_false, Eh.
Qed.

Lemma by_replace_iimpl H im : by_steps H (replace_iimpl im).
Proof.
  intros s s' r E. unfold replace_iimpl, bind, get, grown, lift, put, ret, panic in E.
  destruct (mget (im_schema im) _) as [si|] eqn:Es; [|injection E as <- <-; constructor].
  destruct (mget (im_iface im) _) as [i|] eqn:Ei; [|injection E as <- <-; constructor].
  destruct (cinsert _ _ _ _) as [m|] eqn:Ec; simpl in E; [|injection E as <- <-; constructor].
  apply cinsert_inv in Ec as [-> _]. injection E as <- <-. apply steps_one, (upd_impl _ _ _ _ _ Es Ei).
Qed.

Lemma by_add_supplement H x : by_steps H (add_supplement x).
Proof.
  intros s s' r E. unfold add_supplement, bind, get, grown, lift, put, ret in E.
  destruct (mget (su_content x) _) as [l|] eqn:Es.
  - destruct (cpush _ _ _) as [m|] eqn:Ec; simpl in E; [|injection E as <- <-; constructor].
    apply cpush_inv in Ec as [-> _]. injection E as <- <-. apply steps_one, upd_suppl_more, Es.
  - destruct (cinsert _ _ _ _) as [m|] eqn:Ec; simpl in E; [|injection E as <- <-; constructor].
    apply cinsert_inv in Ec as [-> _]. injection E as <- <-. apply steps_one, upd_suppl_new, Es.
Qed.

Lemma by_consume_types H t : by_steps H (consume_types t).
Proof.
  apply by_mfor. intros p _ s s' r E. unfold bind, get, grown, lift, put in E.
  destruct (cinsert _ _ _ _) as [m|] eqn:Ec; simpl in E; [|injection E as <- <-; constructor].
  apply cinsert_inv in Ec as [-> _]. injection E as <- <-. apply steps_one, upd_type.
Qed.

Lemma by_replace_lib H l : by_steps H (replace_lib l).
Proof.
  intros s s' r E. unfold replace_lib, bind, get, grown, lift, put, ret in E.
  destruct (cinsert _ _ _ _) as [m|] eqn:Ec; simpl in E; [|injection E as <- <-; constructor].
  apply cinsert_inv in Ec as [-> _]. injection E as <- <-. apply steps_one, upd_lib.
Qed.

Lemma by_replace_attachment H i d : by_steps H (replace_attachment i d).
Proof.
  intros s s' r E. unfold replace_attachment, bind, get, grown, lift, put, ret in E.
  destruct (cinsert _ _ _ _) as [m|] eqn:Ec; simpl in E; [|injection E as <- <-; constructor].
  apply cinsert_inv in Ec as [-> _]. injection E as <- <-. apply steps_one, upd_attachment.
Qed.

Lemma by_store_secret_seal H x : by_steps H (store_secret_seal x).
Proof.
  intros s s' r E. unfold store_secret_seal, add_secret_seal, bind, get, grown, lift, put, ret in E.
  destruct (cpush _ _ _) as [m|] eqn:Ec; simpl in E; [|injection E as <- <-; constructor].
  apply cpush_inv in Ec as [-> _]. injection E as <- <-. apply steps_one, upd_seal.
Qed.

Lemma by_consume_genesis H g : g_op G g -> by_steps H (consume_genesis H g).
Proof.
  intros Hg s s' r E. unfold consume_genesis, replace_genesis, bind, get, grown, lift, put, ret in E.
  destruct (mget (contract_id H g) _) as [old|] eqn:Es.
  - destruct (merge_op H old g) as [g'|e|] eqn:Em; simpl in E; try (injection E as <- <-; constructor).
    destruct (cinsert _ _ _ _) as [m|] eqn:Ec; simpl in E; [|injection E as <- <-; constructor].
    apply cinsert_inv in Ec as [-> _]. injection E as <- <-. apply steps_one, (upd_genesis_merge _ _ _ _ _ Hg Es Em).
  - destruct (cinsert _ _ _ _) as [m|] eqn:Ec; simpl in E; [|injection E as <- <-; constructor].
    apply cinsert_inv in Ec as [-> _]. injection E as <- <-. apply steps_one, (upd_genesis_new _ _ _ Hg Es).
Qed.

Lemma by_consume_extension H g : g_ext G g -> by_steps H (consume_extension H g).
Proof.
  intros Hg s s' r E. unfold consume_extension, replace_extension, bind, get, grown, lift, put, ret in E.
  destruct (mget (op_id H g) _) as [old|] eqn:Es.
  - destruct (merge_op H old g) as [g'|e|] eqn:Em; simpl in E; try (injection E as <- <-; constructor).
    destruct (cinsert _ _ _ _) as [m|] eqn:Ec; simpl in E; [|injection E as <- <-; constructor].
    apply cinsert_inv in Ec as [-> _]. injection E as <- <-. apply steps_one, (upd_extension_merge _ _ _ _ _ Hg Es Em).
  - destruct (cinsert _ _ _ _) as [m|] eqn:Ec; simpl in E; [|injection E as <- <-; constructor].
    apply cinsert_inv in Ec as [-> _]. injection E as <- <-. apply steps_one, (upd_extension_new _ _ _ Hg Es).
Qed.

Lemma by_consume_bundle H b : g_bundle G b -> by_steps H (consume_bundle H b).
Proof.
  intros Hg s s' r E. unfold consume_bundle, replace_bundle, bind, get, grown, lift, put, ret in E.
  destruct (mget (bundle_id H b) _) as [old|] eqn:Es.
  - destruct (merge_bundle H old b) as [g'|e|] eqn:Em; simpl in E; try (injection E as <- <-; constructor).
    destruct (cinsert _ _ _ _) as [m|] eqn:Ec; simpl in E; [|injection E as <- <-; constructor].
    apply cinsert_inv in Ec as [-> _]. injection E as <- <-. apply steps_one, (upd_bundle_merge _ _ _ _ _ Hg Es Em).
  - destruct (cinsert _ _ _ _) as [m|] eqn:Ec; simpl in E; [|injection E as <- <-; constructor].
    apply cinsert_inv in Ec as [-> _]. injection E as <- <-. apply steps_one, (upd_bundle_new _ _ _ Hg Es).
Qed.

Lemma by_consume_witness H w : by_steps H (consume_witness w).
Proof.
  intros s s' r E. unfold consume_witness, replace_witness, bind, get, grown, lift, put, ret in E.
  destruct (mget (sw_id w) _) as [old|] eqn:Es.
  - destruct (merge_xpub _ _) as [p|e|] eqn:Ep; simpl in E; try (injection E as <- <-; constructor).
    destruct (merge_anchors _ _) as [a|e|] eqn:Ea; simpl in E; try (injection E as <- <-; constructor).
    destruct (cinsert _ _ _ _) as [m|] eqn:Ec; simpl in E; [|injection E as <- <-; constructor].
    apply cinsert_inv in Ec as [-> _]. injection E as <- <-. apply steps_one, (upd_witness_merge _ _ _ _ _ _ Es Ep Ea).
  - destruct (cinsert _ _ _ _) as [m|] eqn:Ec; simpl in E; [|injection E as <- <-; constructor].
    apply cinsert_inv in Ec as [-> _]. injection E as <- <-. apply steps_one, upd_witness_new, Es.
Qed.

(** *** Signatures *)

Lemma with_identities_twice a b s : with_identities a (with_identities b s) = with_identities a s.
Proof. destruct s; reflexivity. Qed.

Lemma judge_spec ids id : let (ids', ok) := judge ids id in
  ok = should_accept (match mget id ids with Some l => l | None => trust_default end) /\
  (ids' = ids \/ (mget id ids = None /\ ids' = minsert id trust_default ids)).
Proof.
  unfold judge. destruct (mget id ids) as [l|] eqn:E; [auto|].
  destruct (cinsert _ _ _ _) as [m|] eqn:Ec; [|auto]. apply cinsert_inv in Ec as [-> _]. auto.
Qed.

(** Recording identities with the default level changes nobody's level. *)
Definition levels (ids : omap N TrustLevel) (id : N) : TrustLevel :=
  match mget id ids with Some l => l | None => trust_default end.

Lemma judge_levels ids id x : levels (fst (judge ids id)) x = levels ids x.
Proof.
  pose proof (judge_spec ids id) as J. destruct (judge ids id) as [ids' ok]. destruct J as [_ [->|[E ->]]]; [reflexivity|].
  unfold levels; simpl. rewrite mget_insert. destruct (keqb x id) eqn:K; [|reflexivity].
  apply keqb_true in K as ->. rewrite E. reflexivity.
Qed.

Lemma add_sigs_levels : forall sigs ids acc x, levels (fst (fst (add_sigs ids acc sigs))) x = levels ids x.
Proof.
  induction sigs as [|[id blob] sigs IH]; intros ids acc x; [reflexivity|]. simpl.
  pose proof (judge_levels ids id x) as J. destruct (judge ids id) as [ids' ok]. simpl in J.
  destruct ok; [destruct (cinsert _ _ _ _)|]; simpl; rewrite ?IH; exact J.
Qed.

Lemma add_sigs_steps H : forall sigs acc s,
  steps H s (with_identities (fst (fst (add_sigs (st_identities s) acc sigs))) s).
Proof.
  induction sigs as [|[id blob] sigs IH]; intros acc s; simpl.
  - destruct s; constructor.
  - pose proof (judge_spec (st_identities s) id) as J. destruct (judge (st_identities s) id) as [ids' ok].
    destruct J as [_ J].
    assert (S1 : steps H s (with_identities ids' s)).
    { destruct J as [->|[E ->]]; [destruct s; constructor|]. apply steps_one, upd_identity, E. }
    destruct ok; [destruct (cinsert _ _ _ _) as [acc'|]|]; simpl.
    + eapply steps_trans; [exact S1|]. specialize (IH acc' (with_identities ids' s)).
      rewrite with_identities_twice in IH. exact IH.
    + exact S1.
    + eapply steps_trans; [exact S1|]. specialize (IH acc (with_identities ids' s)).
      rewrite with_identities_twice in IH. exact IH.
Qed.

(** What is in the accumulator afterwards *)
Lemma add_sigs_acc : forall sigs ids acc x,
  let acc' := snd (fst (add_sigs ids acc sigs)) in
  (mget x acc' = mget x acc \/
   (should_accept (levels ids x) = true /\ mget x acc' <> None)) /\
  (msorted acc -> msorted acc').
Proof.
  induction sigs as [|[id blob] sigs IH]; intros ids acc x; simpl; [auto|].
  pose proof (judge_levels ids id) as JL.
  pose proof (judge_spec ids id) as J. destruct (judge ids id) as [ids' ok]. destruct J as [Eok _]. simpl in JL.
  destruct ok; [destruct (cinsert _ _ _ _) as [acc'|] eqn:Ec|]; simpl; [|auto|].
  - apply cinsert_inv in Ec as [-> _]. destruct (IH ids' (minsert id blob acc) x) as [I1 I2].
    split; [|intros Ms; apply I2, minsert_sorted, Ms].
    rewrite mget_insert, JL in I1. destruct (keqb x id) eqn:K.
    + apply keqb_true in K as ->. right. split; [symmetry; exact Eok|].
      destruct I1 as [I1|[_ I1]]; [rewrite I1; discriminate|exact I1].
    + exact I1.
  - destruct (IH ids' acc x) as [I1 I2]. rewrite JL in I1. auto.
Qed.

Lemma get_trust_levels s id : get_trust s id = levels (st_identities s) id.
Proof. reflexivity. Qed.

Lemma by_import_sigs H c sigs : by_steps H (import_sigs c sigs).
Proof.
  intros s s' r E. unfold import_sigs, bind, get, put, ret, fail in E.
  destruct (mget c (st_sigs s)) as [prev|] eqn:Ec.
  - pose proof (add_sigs_steps H sigs prev s) as S1.
    pose proof (add_sigs_levels sigs (st_identities s) prev) as L1.
    pose proof (add_sigs_acc sigs (st_identities s) prev) as A1.
    destruct (add_sigs (st_identities s) prev sigs) as [[ids acc] ok]. simpl in S1, L1, A1.
    assert (steps H s (with_sigs (minsert c acc (st_sigs s)) (with_identities ids s))).
    { eapply steps_trans; [exact S1|].
      apply steps_one, (upd_sigs H (with_identities ids s) c acc).
      - intros id. destruct (A1 id) as [[A|A] _].
        + left. unfold signature, sigs_for. simpl. rewrite Ec. exact A.
        + right. rewrite get_trust_levels. simpl. rewrite L1. exact A.
      - intros old Eo. simpl in Eo. rewrite Ec in Eo. apply Some_inj in Eo as <-. apply (A1 0).
      - simpl. rewrite Ec. discriminate. }
    destruct ok; injection E as <- <-; assumption.
  - pose proof (add_sigs_steps H sigs [] s) as S1.
    pose proof (add_sigs_levels sigs (st_identities s) []) as L1.
    pose proof (add_sigs_acc sigs (st_identities s) []) as A1.
    destruct (add_sigs (st_identities s) [] sigs) as [[ids acc] ok]. simpl in S1, L1, A1.
    destruct ok; simpl in E; [|injection E as <- <-; exact S1].
    destruct (len acc =? 0) eqn:El; [injection E as <- <-; exact S1|].
    destruct (cinsert _ _ _ _) as [m|] eqn:Em; simpl in E; [|injection E as <- <-; exact S1].
    apply cinsert_inv in Em as [-> _]. injection E as <- <-.
    eapply steps_trans; [exact S1|].
    apply steps_one, (upd_sigs H (with_identities ids s) c acc).
    + intros id. destruct (A1 id) as [[A|A] _].
      * left. unfold signature, sigs_for. simpl. rewrite Ec. exact A.
      * right. rewrite get_trust_levels. simpl. rewrite L1. exact A.
    + simpl. rewrite Ec. discriminate.
    + intros _. split; [apply (A1 0); constructor|]. intros ->. discriminate.
Qed.

Lemma by_consume_kit H k : by_steps H (consume_kit k).
Proof.
  unfold consume_kit. repeat (apply by_bind; [|intros _]).
  - apply by_consume_types.
  - apply by_mfor. intros. apply by_bind; [apply by_replace_lib|intros; apply by_ret].
  - apply by_mfor. intros. apply by_bind; [apply by_replace_schema|intros; apply by_ret].
  - apply by_mfor. intros. apply by_bind; [apply by_replace_iface|intros; apply by_ret].
  - apply by_mfor. intros. apply by_bind; [apply by_replace_iimpl|intros; apply by_ret].
  - apply by_mfor. intros. apply by_add_supplement.
  - apply by_mfor. intros. apply by_attempt, by_import_sigs.
Qed.

Lemma by_anchor_all H K cid l : (forall p, In p l -> g_bundle G (snd p)) -> by_steps H (anchor_all H K cid l).
Proof.
  induction l as [|p l IHl]; intros Hg; simpl; [apply by_ret|]. apply by_bind.
  - unfold anchor_bundle. apply by_bind; [apply by_consume_bundle, Hg; left; reflexivity|intros _]. apply by_bind; [apply by_lift|intros; apply by_ret].
  - intros. apply by_bind; [apply IHl; intros q Hq; apply Hg; right; exact Hq|intros; apply by_ret].
Qed.

Lemma by_anchors_of H l : by_steps H (anchors_of l).
Proof.
  unfold anchors_of. intros s s' r E.
  destruct (rev l) as [|[[] a] [|[[] b] t]]; injection E as <- <-; constructor.
Qed.

Lemma by_consume_witness_bundle H K cid w : (forall p, In p (anchored_iter (wb_bundles w)) -> g_bundle G (snd p)) ->
  by_steps H (consume_witness_bundle H K cid w).
Proof.
  intros Hg. unfold consume_witness_bundle. apply by_bind; [apply by_anchor_all, Hg|intros]. apply by_bind; [apply by_anchors_of|intros].
  apply by_bind; [apply by_consume_witness|intros; apply by_ret].
Qed.

(** Everything a call brings is as guarded. *)
Definition cons_guarded (c : Consignment) : Prop :=
  g_op G (c_genesis c) /\ (forall e, In e (c_extensions c) -> g_ext G e) /\
  (forall wb p, In wb (c_bundles c) -> In p (anchored_iter (wb_bundles wb)) -> g_bundle G (snd p)).
Definition call_guarded (c : StashCall) : Prop :=
  match c with ShConsignment c => cons_guarded c | ShBundle b => g_bundle G b | _ => True end.

Lemma by_consume_consignment H K c : cons_guarded c -> by_steps H (consume_consignment H K c).
Proof.
  intros (G1 & G2 & G3). unfold consume_consignment. cbv zeta. apply by_bind; [|intros _; apply by_bind; [|intros _; apply by_bind; [|intros _; apply by_bind; [|intros _]]]].
  - apply by_consume_genesis, G1.
  - apply by_mfor. intros e He. apply by_consume_extension, G2, He.
  - apply by_mfor. intros wb Hwb. apply by_consume_witness_bundle. intros p Hp. eapply G3; eassumption.
  - apply by_mfor. intros. apply by_bind; [apply by_replace_attachment|intros; apply by_ret].
  - apply by_consume_kit.
Qed.

(** A call either consists of such changes, or sets one trust level. *)
Lemma call_steps H K c s : call_guarded c ->
  steps H s (fst (stash_call H K c s)) \/
  exists id l, c = ShTrust id l /\ fst (stash_call H K c s) = with_identities (minsert id l (st_identities s)) s.
Proof.
  assert (D : forall A (m : STM A), by_steps H m -> steps H s (fst (m s))).
  { intros A m B. destruct (m s) as [s' r] eqn:E. eapply B, E. }
  destruct c as [c|k|w|b|x|id l]; simpl; intros Hg.
  - left. apply D, by_consume_consignment, Hg.
  - left. apply D, by_consume_kit.
  - left. apply D, by_bind; [apply by_consume_witness|intros; apply by_ret].
  - left. apply D, by_bind; [apply by_consume_bundle, Hg|intros; apply by_ret].
  - left. apply D, by_bind; [apply by_store_secret_seal|intros; apply by_ret].
  - unfold set_trust, bind, get, grown, lift, put. destruct (cinsert _ _ _ _) as [m|] eqn:Ec; simpl.
    + apply cinsert_inv in Ec as [-> _]. right. eauto.
    + left. constructor.
Qed.

(** Whatever is kept by single changes and by setting trust levels holds after any calls. *)
Lemma calls_keep H K (P : MemStash -> Prop) : 
  (forall a b, upd H a b -> P a -> P b) ->
  (forall a id l, P a -> P (with_identities (minsert id l (st_identities a)) a)) ->
  forall l s, (forall c, In c l -> call_guarded c) -> P s -> P (stash_after H K s l).
Proof.
  intros K1 K2. induction l as [|c l IH]; intros s Hg Ps; [exact Ps|]. simpl. apply IH; [intros d Hd; apply Hg; right; exact Hd|].
  destruct (call_steps H K c s (Hg c (or_introl eq_refl))) as [S|(id & t & _ & ->)]; [|apply K2, Ps]. eapply steps_keep; eauto.
Qed.

(** ** What is kept *)

Lemma schema_kept H id sc s s' : upd H s s' ->
  (exists si, mget id (st_schemata s) = Some si /\ si_schema si = sc) ->
  exists si, mget id (st_schemata s') = Some si /\ si_schema si = sc.
Proof.
  intros U (si & E & Es). destruct U; simpl; eauto.
  - rewrite mget_insert. destruct (keqb id (sch_id sc0)) eqn:K; [|eauto].
    apply keqb_true in K as ->. congruence.
  - rewrite mget_insert. destruct (keqb id (im_schema im)) eqn:K; [|eauto].
    apply keqb_true in K as ->. rewrite E in H0. apply Some_inj in H0 as <-. eauto.
Qed.

Lemma iface_kept H id i s s' : upd H s s' ->
  mget id (st_ifaces s) = Some i -> mget id (st_ifaces s') = Some i.
Proof.
  intros U E. destruct U; simpl; try assumption. rewrite mget_insert.
  destruct (keqb id (if_id i0)) eqn:K; [|assumption]. apply keqb_true in K as ->. congruence.
Qed.

Lemma seal_kept H x s s' : upd H s s' -> In x (st_seals s) -> In x (st_seals s').
Proof. intros U E. destruct U; simpl; try assumption. apply In_sinsert. auto. Qed.

Lemma trust_kept H id s s' : upd H s s' -> get_trust s' id = get_trust s id.
Proof.
  intros U. destruct U; try reflexivity. rewrite !get_trust_levels. unfold levels; simpl.
  rewrite mget_insert. destruct (keqb id id0) eqn:K; [|reflexivity]. apply keqb_true in K as ->. rewrite H0. reflexivity.
Qed.

Lemma filed_kept H s s' : upd H s s' -> filed H s -> filed H s'.
Proof.
  intros U [F1 F2 F3 F4 F5 F6 F7 F8].
  destruct U; constructor; simpl; try assumption.
  - intros k si E. ins; [reflexivity|eauto].
  - intros k si name im E En. ins; [discriminate|eauto].
  - intros k j E. ins; [reflexivity|eauto].
  - intros k si name im E En. destruct (F3 _ _ _ _ E En) as (A & j & B & C). split; [exact A|].
    exists j. split; [|exact C]. rewrite mget_insert. destruct (keqb (im_iface im) (if_id i)) eqn:K; [|exact B].
    apply keqb_true in K. congruence.
  - intros k si' E. ins; [simpl; eauto|eauto].
  - intros k si' name im' E En. ins; [|eauto]. simpl in En. ins; [split; [reflexivity|]; eauto|eauto].
  - intros k l x' E Hin. ins; [|eauto]. destruct Hin as [<-|[]]; reflexivity.
  - intros k l' x' E Hin. ins; [|eauto]. apply In_sinsert in Hin as [->|Hin]; [reflexivity|eauto].
  - intros k g' E. ins; [reflexivity|eauto].
  - intros k g'' E. ins; [reflexivity|eauto].
  - intros k g' E. ins; [reflexivity|eauto].
  - intros k g'' E. ins; [reflexivity|eauto].
  - intros k g' E. ins; [reflexivity|eauto].
  - intros k g'' E. ins; [reflexivity|eauto].
  - intros k g' E. ins; [reflexivity|eauto].
  - intros k g'' E. ins; [reflexivity|eauto].
Qed.

End Steps.

Definition anything : Guard := {| g_op := fun _ => True; g_ext := fun _ => True; g_bundle := fun _ => True |}.
Lemma unguarded c : call_guarded anything c.
Proof. destruct c; simpl; unfold cons_guarded; simpl; auto. Qed.

Lemma filed_empty H : filed H st_empty.
Proof. constructor; simpl; discriminate. Qed.

Lemma filed_after H K l : filed H (stash_after H K st_empty l).
Proof.
  apply (calls_keep anything); [apply filed_kept| |intros; apply unguarded|apply filed_empty].
  intros a id t [F1 F2 F3 F4 F5 F6 F7 F8]. constructor; assumption.
Qed.

Lemma sorted_kept G H s s' : upd G H s s' -> stash_sorted s -> stash_sorted s'.
Proof.
  intros U [].
  destruct U; constructor; simpl; try assumption; try (apply minsert_sorted; assumption).
  - intros k si E. ins; [constructor|eauto].
  - intros k si' E. ins; [simpl; apply minsert_sorted; eauto|eauto].
  - intros c l E. ins; [repeat constructor|eauto].
  - intros c l' E. ins; [apply sinsert_sorted; eauto|eauto].
  - intros c' m E. ins; [|eauto]. destruct (mget c (st_sigs s)) as [old|] eqn:Eo; [|apply H2; reflexivity].
    eapply H1; eauto.
  - apply sinsert_sorted; assumption.
Qed.

Lemma sorted_empty : stash_sorted st_empty.
Proof. constructor; simpl; try constructor; discriminate. Qed.

Lemma sorted_call H K c s : stash_sorted s -> stash_sorted (fst (stash_call H K c s)).
Proof.
  intros S. destruct (call_steps anything H K c s (unguarded c)) as [T|(id & l & _ & ->)].
  - eapply steps_keep; [apply sorted_kept|exact T|exact S].
  - destruct S; constructor; simpl; try assumption. apply minsert_sorted; assumption.
Qed.

Lemma sorted_after H K l s : stash_sorted s -> stash_sorted (stash_after H K s l).
Proof. revert s. induction l as [|c l IH]; intros s S; [exact S|]. apply IH, sorted_call, S. Qed.

(** ** Exact effects of the loops of [consume_kit] *)

(** Inserting if absent / overwriting, for a list *)
Definition add_new {A V} (key : A -> N) (val : A -> V) (l : list A) (m : omap N V) : omap N V :=
  fold_left (fun m x => if mhas (key x) m then m else minsert (key x) (val x) m) l m.

Lemma add_new_get {A V} (key : A -> N) (val : A -> V) l : forall m k,
  mget k (add_new key val l m) =
  match mget k m with Some v => Some v | None => option_map val (find (fun x => key x =? k) l) end.
Proof.
  induction l as [|x l IH]; intros m k; simpl; [destruct (mget k m); reflexivity|].
  unfold add_new in *. simpl. rewrite IH. destruct (mhas (key x) m) eqn:Eh.
  - destruct (mget k m) eqn:E; [reflexivity|]. destruct (N.eqb_spec (key x) k) as [<-|]; [|reflexivity].
    apply mhas_true in Eh as [v Ev]. congruence.
  - apply mhas_false in Eh. rewrite mget_insert. destruct (keqb k (key x)) eqn:K.
    + apply keqb_true in K as ->. rewrite Eh, N.eqb_refl. reflexivity.
    + destruct (mget k m); [reflexivity|]. destruct (N.eqb_spec (key x) k) as [<-|]; [|reflexivity].
      rewrite keqb_refl in K. discriminate.
Qed.

Lemma add_new_len {A V} (key : A -> N) (val : A -> V) l : forall m, len (add_new key val l m) <= len m + len l.
Proof.
  induction l as [|x l IH]; intros m; unfold add_new in *; simpl; [unfold len; simpl; lia|].
  etransitivity; [apply IH|]. destruct (mhas (key x) m); unfold len; simpl; [lia|].
  pose proof (length_insert_le (key x) (val x) m). lia.
Qed.

Ltac bind_ok E := unfold bind at 1 in E;
  match type of E with (match ?m ?s with _ => _ end) = _ => 
    let s1 := fresh "s1" in let r1 := fresh "r1" in let E1 := fresh "E1" in
    destruct (m s) as [s1 [r1|?|]] eqn:E1; [|discriminate E|discriminate E] end.

Definition schemas_done l s := with_schemata (add_new sch_id (fun sc => {| si_schema := sc; si_impls := [] |}) l (st_schemata s)) s.

Lemma replace_schema_run sc s : match replace_schema sc s with
  | (s', Ok _) => s' = schemas_done [sc] s
  | (s', Err e) => s' = s /\ U8MAX <= len (st_schemata s)
  | (s', Panic) => False
  end.
Proof.
  unfold replace_schema, bind, get, grown, lift, put, ret, schemas_done, add_new. simpl.
  destruct (mhas (sch_id sc) (st_schemata s)) eqn:Eh; [destruct s; reflexivity|].
  unfold cinsert. destruct (len (st_schemata s) <? U8MAX) eqn:El; simpl; [reflexivity|].
  split; [reflexivity|]. apply N.ltb_ge, El.
Qed.

Lemma schemas_done_app l x s : schemas_done l (schemas_done [x] s) = schemas_done (x :: l) s.
Proof. destruct s; reflexivity. Qed.

Lemma replace_schemata_run l : forall s,
  match mfor (fun x => replace_schema x ;;! ret tt) l s with
  | (s', Ok _) => s' = schemas_done l s
  | (s', Err e) => U8MAX < len (st_schemata s) + len l
  | (s', Panic) => False
  end.
Proof.
  induction l as [|x l IH]; intros s; [destruct s; reflexivity|]. simpl.
  unfold bind at 1. unfold bind at 1. pose proof (replace_schema_run x s) as R.
  destruct (replace_schema x s) as [s1 [b|e|]]; [|unfold len in *; simpl; lia|exact R].
  subst s1. simpl. specialize (IH (schemas_done [x] s)).
  destruct (mfor _ l _) as [s' [u|e|]]; [rewrite IH; apply schemas_done_app| |exact IH].
  pose proof (add_new_len sch_id (fun sc => {| si_schema := sc; si_impls := [] |}) [x] (st_schemata s)) as L.
  unfold len in *. simpl in *. lia.
Qed.

Definition ifaces_done l s := with_ifaces (add_new if_id (fun i => i) l (st_ifaces s)) s.

Lemma replace_iface_run i s : match replace_iface i s with
  | (s', Ok _) => s' = ifaces_done [i] s
  | (s', Err e) => s' = s /\ U8MAX <= len (st_ifaces s)
  | (s', Panic) => False
  end.
Proof.
  unfold replace_iface, bind, get, grown, lift, put, ret, ifaces_done, add_new. simpl.
  destruct (mhas (if_id i) (st_ifaces s)) eqn:Eh; [destruct s; reflexivity|].
  unfold cinsert. destruct (len (st_ifaces s) <? U8MAX) eqn:El; simpl; [reflexivity|].
  split; [reflexivity|]. apply N.ltb_ge, El.
Qed.

Lemma ifaces_done_app l x s : ifaces_done l (ifaces_done [x] s) = ifaces_done (x :: l) s.
Proof. destruct s; reflexivity. Qed.

Lemma replace_ifaces_run l : forall s,
  match mfor (fun x => replace_iface x ;;! ret tt) l s with
  | (s', Ok _) => s' = ifaces_done l s
  | (s', Err e) => U8MAX < len (st_ifaces s) + len l
  | (s', Panic) => False
  end.
Proof.
  induction l as [|x l IH]; intros s; [destruct s; reflexivity|]. simpl.
  unfold bind at 1. unfold bind at 1. pose proof (replace_iface_run x s) as R.
  destruct (replace_iface x s) as [s1 [b|e|]]; [|unfold len in *; simpl; lia|exact R].
  subst s1. simpl. specialize (IH (ifaces_done [x] s)).
  destruct (mfor _ l _) as [s' [u|e|]]; [rewrite IH; apply ifaces_done_app| |exact IH].
  pose proof (add_new_len if_id (fun i => i) [x] (st_ifaces s)) as L.
  unfold len in *. simpl in *. lia.
Qed.

(** Overwriting loops *)
Definition overwrite {V} (l : list (N * V)) (m : omap N V) : omap N V :=
  fold_left (fun m p => minsert (fst p) (snd p) m) l m.

Lemma find_last_cons {A} (f : A -> bool) x l :
  find_last f (x :: l) = match find_last f l with Some y => Some y | None => if f x then Some x else None end.
Proof.
  unfold find_last. simpl. induction (rev l) as [|y r IH]; simpl; [reflexivity|]. destruct (f y); [reflexivity|exact IH].
Qed.

Lemma overwrite_get {V} (l : list (N * V)) : forall m k,
  mget k (overwrite l m) =
  match find_last (fun p => fst p =? k) l with Some p => Some (snd p) | None => mget k m end.
Proof.
  induction l as [|x l IH]; intros m k; [reflexivity|]. unfold overwrite in *. simpl. rewrite IH, find_last_cons.
  destruct (find_last _ l); [reflexivity|]. rewrite mget_insert.
  destruct (N.eqb_spec (fst x) k) as [<-|Ne]; [rewrite keqb_refl; reflexivity|].
  rewrite (proj2 (keqb_neq _ _)) by congruence. reflexivity.
Qed.

Definition types_done (l : list (N * N)) s := with_types (overwrite l (st_types s)) s.
Definition libs_done (l : list (N * N)) s := with_libs (overwrite l (st_libs s)) s.
Definition attachments_done (l : list (N * N)) s := with_attachments (overwrite l (st_attachments s)) s.

Lemma len_cons {A} (x : A) l : len (x :: l) = len l + 1.
Proof. unfold len. simpl length. lia. Qed.
Lemma len_insert_le {K V} `{OrdKey K} (k : K) (v : V) m : len (minsert k v m) <= len m + 1.
Proof. pose proof (length_insert_le k v m). unfold len. lia. Qed.

Lemma consume_types_run l : forall s,
  match consume_types l s with
  | (s', Ok _) => s' = types_done l s
  | (s', Err e) => U24MAX < len (st_types s) + len l
  | (s', Panic) => False
  end.
Proof.
  induction l as [|x l IH]; intros s; [destruct s; reflexivity|].
  unfold consume_types in *. cbn [mfor]. unfold bind at 1, bind at 1, get at 1, bind at 1, grown at 1, lift at 1, cinsert at 1.
  destruct (len (st_types s) <? U24MAX) eqn:El; simpl ok_or.
  - cbn. specialize (IH (with_types (minsert (fst x) (snd x) (st_types s)) s)).
    destruct (mfor _ l _) as [s' [u|e|]]; [rewrite IH; destruct s; reflexivity| |exact IH].
    rewrite len_cons. simpl in IH. pose proof (len_insert_le (fst x) (snd x) (st_types s)). lia.
  - apply N.ltb_ge in El. rewrite len_cons. simpl. lia.
Qed.

Lemma replace_libs_run l : forall s,
  match mfor (fun x => replace_lib x ;;! ret tt) l s with
  | (s', Ok _) => s' = libs_done l s
  | (s', Err e) => U16MAX < len (st_libs s) + len l
  | (s', Panic) => False
  end.
Proof.
  induction l as [|x l IH]; intros s; [destruct s; reflexivity|].
  cbn [mfor]. unfold bind at 1, bind at 1, replace_lib at 1, bind at 1, get at 1, bind at 1, grown at 1, lift at 1, cinsert at 1.
  destruct (len (st_libs s) <? U16MAX) eqn:El; simpl ok_or.
  - cbn. specialize (IH (with_libs (minsert (fst x) (snd x) (st_libs s)) s)).
    destruct (mfor _ l _) as [s' [u|e|]]; [rewrite IH; destruct s; reflexivity| |exact IH].
    rewrite len_cons. simpl in IH. pose proof (len_insert_le (fst x) (snd x) (st_libs s)). lia.
  - apply N.ltb_ge in El. rewrite len_cons. simpl. lia.
Qed.

Lemma replace_attachments_run l : forall s,
  match mfor (fun p => replace_attachment (fst p) (snd p) ;;! ret tt) l s with
  | (s', Ok _) => s' = attachments_done l s
  | (s', Err e) => U16MAX < len (st_attachments s) + len l
  | (s', Panic) => False
  end.
Proof.
  induction l as [|x l IH]; intros s; [destruct s; reflexivity|].
  cbn [mfor]. unfold bind at 1, bind at 1, replace_attachment at 1, bind at 1, get at 1, bind at 1, grown at 1, lift at 1, cinsert at 1.
  destruct (len (st_attachments s) <? U16MAX) eqn:El; simpl ok_or.
  - cbn. specialize (IH (with_attachments (minsert (fst x) (snd x) (st_attachments s)) s)).
    destruct (mfor _ l _) as [s' [u|e|]]; [rewrite IH; destruct s; reflexivity| |exact IH].
    rewrite len_cons. simpl in IH. pose proof (len_insert_le (fst x) (snd x) (st_attachments s)). lia.
  - apply N.ltb_ge in El. rewrite len_cons. simpl. lia.
Qed.

(** *** Implementations *)

(** [m'] is [m] after filing the implementations [l] *)
Definition impls_filed (s : MemStash) (l : list ImplRec) (m m' : omap N SchemaIfaces) : Prop :=
  forall id, match mget id m, mget id m' with
             | None, None => True
             | Some si, Some si' =>
                 si_schema si' = si_schema si /\
                 forall name, mget name (si_impls si') =
                   match find_last (impl_at s id name) l with
                   | Some im => Some im
                   | None => mget name (si_impls si)
                   end
             | _, _ => False
             end.

Lemma replace_iimpls_run l : forall s,
  match mfor (fun x => replace_iimpl x ;;! ret tt) l s with
  | (s', Ok _) => (forall im, In im l -> impl_known s im) /\
      exists m, s' = with_schemata m s /\ impls_filed s l (st_schemata s) m
  | (s', Err e) => exists id si, mget id (st_schemata s) = Some si /\ U8MAX < len (si_impls si) + len l
  | (s', Panic) => exists im, In im l /\ ~ impl_known s im
  end.
Proof.
  induction l as [|x l IH]; intros s.
  - cbn. split; [intros im []|]. exists (st_schemata s). split; [destruct s; reflexivity|].
    intros id. destruct (mget id (st_schemata s)); [|exact I]. split; [reflexivity|]. reflexivity.
  - cbn [mfor]. unfold bind at 1, bind at 1, replace_iimpl at 1, bind at 1, get at 1.
    destruct (mget (im_schema x) (st_schemata s)) as [si|] eqn:Es.
    2:{ simpl. exists x. split; [left; reflexivity|]. intros [A _]. congruence. }
    destruct (mget (im_iface x) (st_ifaces s)) as [i|] eqn:Ei.
    2:{ simpl. exists x. split; [left; reflexivity|]. intros [_ A]. congruence. }
    unfold bind at 1, grown at 1, lift at 1, cinsert at 1.
    destruct (len (si_impls si) <? U8MAX) eqn:El; simpl ok_or.
    2:{ apply N.ltb_ge in El. exists (im_schema x), si. split; [exact Es|]. rewrite len_cons. lia. }
    cbn. set (si' := {| si_schema := si_schema si; si_impls := minsert (if_name i) x (si_impls si) |}).
    specialize (IH (with_schemata (minsert (im_schema x) si' (st_schemata s)) s)).
    destruct (mfor _ l _) as [s' [u|e|]].
    + destruct IH as [IH1 (m & -> & IH2)]. split.
      * intros im [<-|Hin]; [split; congruence|]. destruct (IH1 im Hin) as [A B]. simpl in A, B. split; [|exact B].
        rewrite mget_insert in A. destruct (keqb (im_schema im) (im_schema x)) eqn:K; [|exact A].
        apply keqb_true in K. rewrite K, Es. discriminate.
      * exists m. split; [destruct s; reflexivity|]. intros id. specialize (IH2 id). simpl in IH2.
        rewrite mget_insert in IH2.
        assert (Ea : forall j, impl_at (with_schemata (minsert (im_schema x) si' (st_schemata s)) s) id j = impl_at s id j)
          by reflexivity.
        destruct (keqb id (im_schema x)) eqn:K.
        -- apply keqb_true in K as ->. rewrite Es. destruct (mget (im_schema x) m) as [si2|]; [|exact IH2].
           destruct IH2 as [IH2 IH3]. split; [exact IH2|]. intros name. rewrite IH3, find_last_cons.
           change (impl_at (with_schemata _ _) (im_schema x) name) with (impl_at s (im_schema x) name).
           destruct (find_last (impl_at s (im_schema x) name) l); [reflexivity|]. unfold impl_at at 1.
           rewrite N.eqb_refl, Ei. simpl. rewrite mget_insert.
           destruct (N.eqb_spec (if_name i) name) as [->|Ne]; [rewrite keqb_refl; reflexivity|].
           rewrite (proj2 (keqb_neq _ _)) by congruence. reflexivity.
        -- destruct (mget id (st_schemata s)) as [si2|], (mget id m) as [si3|]; try exact IH2.
           destruct IH2 as [IH2 IH3]. split; [exact IH2|]. intros name. rewrite IH3, find_last_cons.
           change (impl_at (with_schemata _ _) id name) with (impl_at s id name).
           destruct (find_last (impl_at s id name) l); [reflexivity|]. unfold impl_at at 1.
           apply keqb_false in K. destruct (N.eqb_spec (im_schema x) id) as [E|_]; [congruence|]. reflexivity.
    + destruct IH as (id & sj & A & B). simpl in A. rewrite mget_insert in A.
      destruct (keqb id (im_schema x)) eqn:K.
      * apply Some_inj in A as <-. exists (im_schema x), si. split; [exact Es|]. rewrite len_cons. simpl in B.
        pose proof (len_insert_le (if_name i) x (si_impls si)). lia.
      * exists id, sj. split; [exact A|]. rewrite len_cons. lia.
    + destruct IH as (im & Hin & Nk). exists im. split; [right; exact Hin|]. intros [A B]. apply Nk. split; [|exact B].
      simpl. rewrite mget_insert. destruct (keqb (im_schema im) (im_schema x)); [discriminate|exact A].
Qed.

(** *** Supplements *)

Lemma add_supplements_run l : forall s,
  match mfor add_supplement l s with
  | (s', Ok _) => exists m, s' = with_suppl m s /\
      forall c x, In x (stash_supplements s' c) <-> (In x l /\ su_content x = c) \/ In x (stash_supplements s c)
  | (s', Err e) => True
  | (s', Panic) => False
  end.
Proof.
  induction l as [|y l IH]; intros s.
  - cbn. exists (st_suppl s). split; [destruct s; reflexivity|]. simpl. tauto.
  - cbn [mfor]. unfold bind at 1, add_supplement at 1, bind at 1, get at 1.
    assert (G : forall l', (forall x, In x l' <-> x = y \/ In x (stash_supplements s (su_content y))) ->
      match mfor add_supplement l (with_suppl (minsert (su_content y) l' (st_suppl s)) s) with
      | (s', Ok _) => exists m, s' = with_suppl m s /\
          forall c x, In x (stash_supplements s' c) <-> (In x (y :: l) /\ su_content x = c) \/ In x (stash_supplements s c)
      | (s', Err e) => True
      | (s', Panic) => False
      end).
    { intros l' Hl. specialize (IH (with_suppl (minsert (su_content y) l' (st_suppl s)) s)).
      destruct (mfor _ l _) as [s' [u|e|]]; [|exact I|exact IH].
      destruct IH as (m & -> & IH). exists m. split; [destruct s; reflexivity|]. intros c x.
      etransitivity; [apply IH|]. unfold stash_supplements at 1. simpl st_suppl. rewrite mget_insert.
      destruct (keqb c (su_content y)) eqn:K.
      - apply keqb_true in K as ->. rewrite Hl. simpl. intuition (subst; auto).
      - apply keqb_false in K. unfold stash_supplements. simpl. intuition (subst; auto; congruence). }
    destruct (mget (su_content y) (st_suppl s)) as [old|] eqn:Eo.
    + unfold bind at 1, grown at 1, lift at 1, cpush at 1. match goal with |- context [if ?c then _ else _] => destruct c end; [|exact I].
      cbn. apply G. intros x. unfold stash_supplements. rewrite Eo. apply In_sinsert.
    + unfold bind at 1, grown at 1, lift at 1, cinsert at 1. match goal with |- context [if ?c then _ else _] => destruct c end; [|exact I].
      cbn. apply G. intros x. unfold stash_supplements. rewrite Eo. simpl. intuition congruence.
Qed.

(** *** Signatures, when there is room *)

Lemma add_sigs_run : forall sigs ids acc,
  msorted sigs -> msorted acc -> len acc + len sigs <= SIGSMAX -> len ids + len sigs <= U16MAX ->
  match add_sigs ids acc sigs with
  | (ids', acc', ok) => ok = true /\
      (forall id, mget id acc' = match mget id sigs with
                                 | Some blob => if should_accept (levels ids id) then Some blob else mget id acc
                                 | None => mget id acc
                                 end) /\
      (forall id, mget id ids' = match mget id ids with
                                 | Some l => Some l
                                 | None => if mhas id sigs then Some trust_default else None
                                 end) /\
      len ids' <= len ids + len sigs
  end.
Proof.
  induction sigs as [|[k blob] sigs IH]; intros ids acc Ms Ma La Li.
  - cbn. split; [reflexivity|]. split; [reflexivity|]. split; [intros id; destruct (mget id ids); reflexivity|lia].
  - pose proof (msorted_NoDup _ Ms) as Nd. cbn in Nd. inversion_clear Nd.
    assert (Gk : mget k sigs = None) by (apply mget_None_notin; assumption).
    apply msorted_inv in Ms as [Ms _]. rewrite len_cons in La, Li.
    cbn [add_sigs].
    assert (Lk : forall x, levels (minsert k trust_default ids) x = match mget k ids with None => levels ids x | _ => levels (minsert k trust_default ids) x end).
    { intros x. destruct (mget k ids) eqn:E; [reflexivity|]. unfold levels. rewrite mget_insert.
      destruct (keqb x k) eqn:K; [|reflexivity]. apply keqb_true in K as ->. rewrite E. reflexivity. }
    set (ids1 := match mget k ids with Some _ => ids | None => minsert k trust_default ids end).
    assert (E1 : judge ids k = (ids1, should_accept (levels ids k))).
    { unfold judge, ids1, levels. destruct (mget k ids); [reflexivity|]. unfold cinsert.
      destruct (len ids <? U16MAX) eqn:El; [reflexivity|]. apply N.ltb_ge in El. lia. }
    rewrite E1. clear E1. cbv beta iota.
    assert (L1 : forall x, levels ids1 x = levels ids x).
    { intros x. unfold ids1. destruct (mget k ids) eqn:E; [reflexivity|]. rewrite Lk. reflexivity. }
    assert (I1 : forall x, mget x ids1 = match mget x ids with Some l => Some l | None => if keqb x k then Some trust_default else None end).
    { intros x. unfold ids1. destruct (mget k ids) eqn:E.
      - destruct (mget x ids) eqn:Ex; [reflexivity|]. destruct (keqb x k) eqn:K; [|reflexivity]. apply keqb_true in K as ->. congruence.
      - rewrite mget_insert. destruct (keqb x k) eqn:K; [apply keqb_true in K as ->; rewrite E; reflexivity|]. destruct (mget x ids); reflexivity. }
    assert (N1 : len ids1 <= len ids + 1).
    { unfold ids1. destruct (mget k ids); [lia|apply len_insert_le]. }
    set (acc1 := if should_accept (levels ids k) then minsert k blob acc else acc).
    match goal with |- (let (p, _) := ?t in _) => assert (E2 : t = add_sigs ids1 acc1 sigs) end.
    { unfold acc1. destruct (should_accept _); [|reflexivity]. unfold cinsert.
      destruct (len acc <? SIGSMAX) eqn:El; [reflexivity|]. apply N.ltb_ge in El. lia. }
    rewrite E2. clear E2.
    assert (N2 : len acc1 <= len acc + 1) by (unfold acc1; destruct (should_accept _); [apply len_insert_le|lia]).
    assert (S2 : msorted acc1) by (unfold acc1; destruct (should_accept _); [apply minsert_sorted|]; assumption).
    specialize (IH ids1 acc1 Ms S2 ltac:(lia) ltac:(lia)).
    destruct (add_sigs ids1 acc1 sigs) as [[ids' acc'] ok]. destruct IH as (-> & A & B & C).
    split; [reflexivity|]. split; [|split; [|rewrite len_cons; lia]].
    + intros id. rewrite A, L1. simpl. destruct (keqb id k) eqn:K.
      * apply keqb_true in K as ->. rewrite Gk. unfold acc1. destruct (should_accept _); [apply mget_insert_eq|reflexivity].
      * unfold acc1. destruct (should_accept (levels ids k)); [|reflexivity]. rewrite mget_insert, K. reflexivity.
    + intros id. rewrite B, I1. unfold mhas. simpl. destruct (mget id ids); [reflexivity|]. destruct (keqb id k) eqn:K.
      * reflexivity.
      * reflexivity.
Qed.

(** The part of the stash signatures do not touch *)
Definition but_sigs (s : MemStash) : MemStash := with_sigs [] (with_identities [] s).

Lemma import_sigs_run c sigs s :
  stash_sorted s -> msorted sigs ->
  len (match sigs_for s c with Some m => m | None => [] end) + len sigs <= SIGSMAX ->
  len (st_sigs s) < U16MAX ->
  len (st_identities s) + len sigs <= U16MAX ->
  exists s', attempt (import_sigs c sigs) s = (s', Ok tt) /\
    (forall c' id, signature s' c' id =
       if keqb c' c then
         match mget id sigs with
         | Some blob => if should_accept (get_trust s id) then Some blob else signature s c id
         | None => signature s c id
         end
       else signature s c' id) /\
    (forall id, mget id (st_identities s') = match mget id (st_identities s) with
                                             | Some l => Some l
                                             | None => if mhas id sigs then Some trust_default else None
                                             end) /\
    (forall c', c' <> c -> sigs_for s' c' = sigs_for s c') /\
    len (st_sigs s') <= len (st_sigs s) + 1 /\
    len (st_identities s') <= len (st_identities s) + len sigs /\
    but_sigs s' = but_sigs s.
Proof.
  intros So Ms L1 L2 L3. unfold attempt, import_sigs, bind, get, put, ret, fail.
  unfold sigs_for in L1. destruct (mget c (st_sigs s)) as [prev|] eqn:Ec.
  - pose proof (add_sigs_run sigs (st_identities s) prev Ms (so_sig _ So _ _ Ec) L1 L3) as R.
    destruct (add_sigs (st_identities s) prev sigs) as [[ids acc] ok]. destruct R as (-> & A & B & C).
    eexists. split; [reflexivity|]. split; [|split; [exact B|split; [|split; [|split; [exact C|destruct s; reflexivity]]]]].
    + intros c' id. unfold signature, sigs_for. simpl. rewrite mget_insert. destruct (keqb c' c); [|reflexivity].
      rewrite Ec, A. reflexivity.
    + intros c' Ne. unfold sigs_for. simpl. apply mget_insert_ne. congruence.
    + apply len_insert_le.
  - assert (L1' : len (@nil (N * N)) + len sigs <= SIGSMAX) by exact L1.
    pose proof (add_sigs_run sigs (st_identities s) [] Ms (msorted_nil (V := N)) L1' L3) as R.
    destruct (add_sigs (st_identities s) [] sigs) as [[ids acc] ok]. destruct R as (-> & A & B & C). simpl negb. cbv iota.
    destruct (len acc =? 0) eqn:El.
    + assert (Ea : acc = []) by (destruct acc; [reflexivity|apply N.eqb_eq in El; rewrite len_cons in El; lia]). subst acc.
      eexists. split; [reflexivity|]. split; [|split; [exact B|split; [reflexivity|split; [simpl; lia|split; [exact C|destruct s; reflexivity]]]]].
      intros c' id. unfold signature, sigs_for. simpl. destruct (keqb c' c) eqn:K; [|reflexivity].
      apply keqb_true in K as ->. rewrite Ec. specialize (A id). simpl in A. unfold get_trust. exact A.
    + unfold cinsert. destruct (len (st_sigs s) <? U16MAX) eqn:Ew; [|apply N.ltb_ge in Ew; lia].
      eexists. split; [reflexivity|]. split; [|split; [exact B|split; [|split; [|split; [exact C|destruct s; reflexivity]]]]].
      * intros c' id. unfold signature, sigs_for. simpl. rewrite mget_insert. destruct (keqb c' c); [|reflexivity].
        rewrite Ec, A. reflexivity.
      * intros c' Ne. unfold sigs_for. simpl. apply mget_insert_ne. congruence.
      * apply len_insert_le.
Qed.

Lemma attempt_sorted {A} (H : Hashes) (m : STM A) s s' r : by_steps anything H m -> attempt m s = (s', r) -> stash_sorted s -> stash_sorted s'.
Proof. intros B E S. eapply steps_keep; [apply sorted_kept|eapply by_attempt; eassumption|exact S]. Qed.

Lemma import_all_sigs_run (H : Hashes) l : forall s,
  stash_sorted s -> msorted l -> (forall c sigs, In (c, sigs) l -> msorted sigs) -> sigs_room l s ->
  exists s', mfor (fun p => attempt (import_sigs (fst p) (snd p))) l s = (s', Ok tt) /\
    (forall c id, signature s' c id =
       match offered l c id with
       | Some blob => if should_accept (get_trust s id) then Some blob else signature s c id
       | None => signature s c id
       end) /\
    (forall id, mget id (st_identities s') = match mget id (st_identities s) with
                | Some l => Some l
                | None => if existsb (fun p => mhas id (snd p)) l then Some trust_default else None
                end) /\
    but_sigs s' = but_sigs s.
Proof.
  induction l as [|[c sigs] l IH]; intros s So Ml Ms (R1 & R2 & R3).
  - exists s. split; [reflexivity|]. split; [reflexivity|]. split; [|reflexivity]. intros id.
    destruct (mget id (st_identities s)); reflexivity.
  - pose proof (msorted_NoDup _ Ml) as Nd. cbn in Nd. inversion_clear Nd.
    assert (Gc : mget c l = None) by (apply mget_None_notin; assumption).
    apply msorted_inv in Ml as [Ml _]. cbn [map list_sum fold_right snd] in R2. rewrite len_cons in R1.
    change (list_sum (len sigs :: map (fun p => len (snd p)) l)) with (len sigs + list_sum (map (fun p => len (snd p)) l)) in R2.
    destruct (import_sigs_run c sigs s So (Ms c sigs (or_introl eq_refl)) (R3 c sigs (or_introl eq_refl)) ltac:(lia) ltac:(lia))
      as (s1 & E1 & A1 & B1 & F1 & L1 & L2 & U1).
    assert (S1 : stash_sorted s1) by (eapply attempt_sorted; [apply (by_import_sigs anything H)|exact E1|exact So]).
    destruct (IH s1 S1 Ml (fun c' sg Hin => Ms c' sg (or_intror Hin))) as (s' & E2 & A2 & B2 & U2).
    { split; [lia|]. split; [unfold list_sum; lia|]. intros c' sg Hin. rewrite F1; [apply R3; right; exact Hin|].
      intros ->. apply In_mget in Hin; [congruence|exact Ml]. }
    exists s'. split; [cbn [mfor]; unfold bind; cbn [fst snd]; rewrite E1; exact E2|].
    assert (T1 : forall id, get_trust s1 id = get_trust s id).
    { intros id. unfold get_trust. rewrite B1. destruct (mget id (st_identities s)); [reflexivity|]. destruct (mhas id sigs); reflexivity. }
    split; [|split; [|congruence]].
    + intros c' id. rewrite A2, T1, A1. unfold offered. simpl. destruct (keqb c' c) eqn:K; [|reflexivity].
      apply keqb_true in K as ->. rewrite Gc. reflexivity.
    + intros id. rewrite B2, B1. destruct (mget id (st_identities s)); [reflexivity|].
      simpl. destruct (mhas id sigs); reflexivity.
Qed.

(** ** The whole kit *)

(** The signatures never make it fail. *)
Lemma import_all_sigs_ok l : forall s, exists s', mfor (fun p => attempt (import_sigs (fst p) (snd p))) l s = (s', Ok tt).
Proof.
  induction l as [|[c sigs] l IH]; intros s; [eexists; reflexivity|]. cbn [mfor]. unfold bind.
  assert (E : exists s1, attempt (import_sigs (fst (c, sigs)) (snd (c, sigs))) s = (s1, Ok tt)); [|destruct E as [s1 ->]; apply IH].
  unfold attempt. cbn [fst snd]. unfold import_sigs, bind, get, put, ret, fail.
  destruct (mget c (st_sigs s)).
  - destruct (add_sigs _ _ _) as [[ids acc] []]; eexists; reflexivity.
  - destruct (add_sigs _ _ _) as [[ids acc] []]; [|eexists; reflexivity]. cbn [negb].
    destruct (len acc =? 0); [eexists; reflexivity|].
    destruct (cinsert U16MAX c acc (st_sigs s)); eexists; reflexivity.
Qed.

(** What a successful import does to the definitions *)
Lemma schemas_done_get l s id :
  match mget id (st_schemata s) with
  | Some si => mget id (st_schemata (schemas_done l s)) = Some si
  | None => mget id (st_schemata (schemas_done l s)) =
            option_map (fun sc => {| si_schema := sc; si_impls := [] |}) (find (fun sc => sch_id sc =? id) l)
  end.
Proof. unfold schemas_done. simpl. pose proof (add_new_get sch_id (fun sc => {| si_schema := sc; si_impls := [] |}) l (st_schemata s) id) as E. destruct (mget id (st_schemata s)); exact E. Qed.

Lemma mid_state l1 l2 l3 l4 s :
  ifaces_done l4 (schemas_done l3 (libs_done l2 (types_done l1 s))) =
  with_ifaces (add_new if_id (fun i => i) l4 (st_ifaces s))
    (with_schemata (add_new sch_id (fun sc => {| si_schema := sc; si_impls := [] |}) l3 (st_schemata s))
       (with_libs (overwrite l2 (st_libs s)) (with_types (overwrite l1 (st_types s)) s))).
Proof. destruct s; reflexivity. Qed.

(** The state before the implementations are filed *)
Definition defined (k : Kit) (s : MemStash) : MemStash :=
  ifaces_done (k_ifaces k) (schemas_done (k_schemata k) (libs_done (k_scripts k) (types_done (k_types k) s))).

Definition kit_defs (k : Kit) : STM unit :=
  consume_types (k_types k) ;;!
  mfor (fun l => replace_lib l ;;! ret tt) (k_scripts k) ;;!
  mfor (fun x => replace_schema x ;;! ret tt) (k_schemata k) ;;!
  mfor (fun x => replace_iface x ;;! ret tt) (k_ifaces k).

Lemma kit_first k s :
  match kit_defs k s with
  | (s', Ok _) => s' = defined k s
  | (s', Err e) => ~ room_for k s
  | (s', Panic) => False
  end.
Proof.
  unfold kit_defs. unfold bind at 1. pose proof (consume_types_run (k_types k) s) as R1.
  destruct (consume_types (k_types k) s) as [s1 [u|e|]]; [|unfold room_for; intros X; lia|exact R1]. subst s1.
  unfold bind at 1. pose proof (replace_libs_run (k_scripts k) (types_done (k_types k) s)) as R1.
  destruct (mfor _ (k_scripts k) _) as [s1 [u1|e|]]; [|unfold room_for; simpl in R1; intros X; lia|exact R1]. subst s1.
  unfold bind at 1. pose proof (replace_schemata_run (k_schemata k) (libs_done (k_scripts k) (types_done (k_types k) s))) as R1.
  destruct (mfor _ (k_schemata k) _) as [s1 [u1'|e|]]; [|unfold room_for; simpl in R1; intros X; lia|exact R1]. subst s1.
  pose proof (replace_ifaces_run (k_ifaces k) (schemas_done (k_schemata k) (libs_done (k_scripts k) (types_done (k_types k) s)))) as R1.
  destruct (mfor _ (k_ifaces k) _) as [s1 [u1''|e|]]; [exact R1|unfold room_for; simpl in R1; intros X; lia|exact R1].
Qed.

Lemma bind_assoc {S E A B C} (m : M S E A) (f : A -> M S E B) (g : B -> M S E C) s :
  bind (bind m f) g s = bind m (fun a => bind (f a) g) s.
Proof. unfold bind. destruct (m s) as [s1 [a|e|]]; reflexivity. Qed.

Lemma kit_split k s : consume_kit k s =
  (kit_defs k ;;!
   mfor (fun x => replace_iimpl x ;;! ret tt) (k_impls k) ;;!
   mfor add_supplement (k_suppl k) ;;!
   mfor (fun p => attempt (import_sigs (fst p) (snd p))) (k_signatures k)) s.
Proof.
  unfold consume_kit, kit_defs, bind. destruct (consume_types (k_types k) s) as [s1 [a|e|]]; try reflexivity.
  destruct (mfor _ (k_scripts k) s1) as [s2 [a2|e|]]; try reflexivity.
  destruct (mfor _ (k_schemata k) s2) as [s3 [a3|e|]]; try reflexivity.
Qed.

Lemma find_exists {A} (f : A -> bool) l : find f l <> None <-> exists x, In x l /\ f x = true.
Proof.
  split.
  - intros Hn. destruct (find f l) eqn:E; [|congruence]. apply find_some in E. eauto.
  - intros (x & Hin & Hf) E. pose proof (find_none _ _ E x Hin). congruence.
Qed.

(** An implementation is known once the definitions are in place iff the kit or the stash
    has what it is for. *)
Lemma defined_known k s im : impl_known (defined k s) im <->
  ((exists sc, In sc (k_schemata k) /\ sch_id sc = im_schema im) \/
   (exists si, stash_schema s (im_schema im) = Ok si)) /\
  ((exists i, In i (k_ifaces k) /\ if_id i = im_iface im) \/
   (exists i, iface_by_id s (im_iface im) = Ok i)).
Proof.
  unfold impl_known, defined. rewrite mid_state. simpl.
  pose proof (add_new_get sch_id (fun sc => {| si_schema := sc; si_impls := [] |}) (k_schemata k) (st_schemata s) (im_schema im)) as E1.
  pose proof (add_new_get if_id (fun i => i) (k_ifaces k) (st_ifaces s) (im_iface im)) as E2.
  unfold stash_schema, iface_by_id.
  assert (A : mget (im_schema im) (add_new sch_id (fun sc => {| si_schema := sc; si_impls := [] |}) (k_schemata k) (st_schemata s)) <> None <->
    ((exists sc, In sc (k_schemata k) /\ sch_id sc = im_schema im) \/ (exists si, ok_or (SchemaAbsent (im_schema im)) (mget (im_schema im) (st_schemata s)) = Ok si))).
  { rewrite E1. destruct (mget (im_schema im) (st_schemata s)) as [si|].
    - split; [intros _; right; exists si; reflexivity|discriminate].
    - simpl. split.
      + intros Hn. left. destruct (find _ (k_schemata k)) eqn:Ef; [|simpl in Hn; congruence].
        apply find_some in Ef as [F1 F2]. apply N.eqb_eq in F2. eauto.
      + intros [(sc & Hin & Es)|(si & Es)]; [|discriminate].
        assert (Hf : find (fun x => sch_id x =? im_schema im) (k_schemata k) <> None)
          by (apply find_exists; exists sc; split; [exact Hin|apply N.eqb_eq, Es]).
        destruct (find _ (k_schemata k)); [discriminate|congruence]. }
  assert (B : mget (im_iface im) (add_new if_id (fun i => i) (k_ifaces k) (st_ifaces s)) <> None <->
    ((exists i, In i (k_ifaces k) /\ if_id i = im_iface im) \/ (exists i, ok_or (IfaceAbsent (im_iface im)) (mget (im_iface im) (st_ifaces s)) = Ok i))).
  { rewrite E2. destruct (mget (im_iface im) (st_ifaces s)) as [si|].
    - split; [intros _; right; exists si; reflexivity|discriminate].
    - simpl. split.
      + intros Hn. left. destruct (find _ (k_ifaces k)) eqn:Ef; [|simpl in Hn; congruence].
        apply find_some in Ef as [F1 F2]. apply N.eqb_eq in F2. eauto.
      + intros [(sc & Hin & Es)|(si & Es)]; [|discriminate].
        assert (Hf : find (fun x => if_id x =? im_iface im) (k_ifaces k) <> None)
          by (apply find_exists; exists sc; split; [exact Hin|apply N.eqb_eq, Es]).
        destruct (find _ (k_ifaces k)); [discriminate|congruence]. }
  rewrite A, B. reflexivity.
Qed.

Lemma kit_no_panic k s : self_contained k s -> snd (consume_kit k s) <> Panic.
Proof.
  intros Sc. rewrite kit_split. pose proof (kit_first k s) as R. unfold bind at 1.
  destruct (kit_defs k s) as [s1 [u|e|]]; [|discriminate|contradiction]. subst s1.
  unfold bind at 1. pose proof (replace_iimpls_run (k_impls k) (defined k s)) as R.
  destruct (mfor _ (k_impls k) _) as [s1 [u1|e|]]; [|discriminate|].
  - unfold bind at 1. pose proof (add_supplements_run (k_suppl k) s1) as R2.
    destruct (mfor _ (k_suppl k) _) as [s2 [u2|e|]]; [|discriminate|contradiction].
    destruct (import_all_sigs_ok (k_signatures k) s2) as [s3 ->]. discriminate.
  - destruct R as (im & Hin & Nk). destruct Nk. apply defined_known, Sc, Hin.
Qed.

Lemma kit_panics k s : room_for k s ->
  (forall id si, stash_schema s id = Ok si -> len (si_impls si) + len (k_impls k) <= U8MAX) ->
  len (k_impls k) <= U8MAX ->
  ~ self_contained k s -> snd (consume_kit k s) = Panic.
Proof.
  intros Rf Ri Rk Nsc. rewrite kit_split. pose proof (kit_first k s) as R. unfold bind at 1.
  destruct (kit_defs k s) as [s1 [u|e|]]; [|contradiction|contradiction]. subst s1.
  unfold bind at 1. pose proof (replace_iimpls_run (k_impls k) (defined k s)) as R.
  destruct (mfor _ (k_impls k) _) as [s1 [u1|e|]]; [| |reflexivity].
  - destruct R as [R _]. destruct Nsc. intros im Hin. apply defined_known, R, Hin.
  - exfalso. destruct R as (id & si & E & L). unfold defined in E. rewrite mid_state in E. cbn [st_schemata with_schemata with_ifaces with_libs with_types] in E.
    rewrite add_new_get in E. destruct (mget id (st_schemata s)) as [si0|] eqn:Es.
    + apply Some_inj in E as <-. assert (Eo : stash_schema s id = Ok si0) by (unfold stash_schema; rewrite Es; reflexivity).
      specialize (Ri _ _ Eo). lia.
    + destruct (find _ _); [|discriminate]. apply Some_inj in E as <-. simpl in L. unfold len in *. simpl in *. lia.
Qed.

Lemma import_sigs_rest c sigs s s' r : attempt (import_sigs c sigs) s = (s', r) -> but_sigs s' = but_sigs s.
Proof.
  unfold attempt, import_sigs, bind, get, put, ret, fail. destruct (mget c (st_sigs s)).
  - destruct (add_sigs _ _ _) as [[ids acc] []]; intros [= <- _]; destruct s; reflexivity.
  - destruct (add_sigs _ _ _) as [[ids acc] []]; cbn [negb]; [|intros [= <- _]; destruct s; reflexivity].
    destruct (len acc =? 0); [intros [= <- _]; destruct s; reflexivity|].
    destruct (cinsert U16MAX c acc (st_sigs s)); intros [= <- _]; destruct s; reflexivity.
Qed.

Lemma import_all_sigs_rest l : forall s s' r,
  mfor (fun p => attempt (import_sigs (fst p) (snd p))) l s = (s', r) -> but_sigs s' = but_sigs s.
Proof.
  induction l as [|p l IH]; intros s s' r; cbn [mfor]; [intros [= <- _]; reflexivity|]. unfold bind.
  destruct (attempt _ s) as [s1 [u|e|]] eqn:E.
  - intros E2. apply IH in E2. rewrite E2. eapply import_sigs_rest, E.
  - intros [= <- _]. eapply import_sigs_rest, E.
  - intros [= <- _]. eapply import_sigs_rest, E.
Qed.

Lemma kit_success k s s' : consume_kit k s = (s', Ok tt) -> kit_imported k s s' /\ self_contained k s.
Proof.
  rewrite kit_split. pose proof (kit_first k s) as R. unfold bind at 1.
  destruct (kit_defs k s) as [s1 [u|e|]]; [|discriminate|discriminate]. subst s1.
  unfold bind at 1. pose proof (replace_iimpls_run (k_impls k) (defined k s)) as R1.
  destruct (mfor _ (k_impls k) _) as [s1 [u1|e|]]; [|discriminate|discriminate].
  unfold bind at 1. pose proof (add_supplements_run (k_suppl k) s1) as R2.
  destruct (mfor _ (k_suppl k) _) as [s2 [u2|e|]]; [|discriminate|discriminate].
  intros E3. apply import_all_sigs_rest in E3.
  destruct R1 as [Kn (m & E1 & Fm)]. destruct R2 as (m2 & E2 & Sm).
  assert (P : forall (f : MemStash -> MemStash), f (but_sigs s') = f (but_sigs s2)) by (intros; congruence).
  assert (Q : forall A (g : MemStash -> A), (forall x, g (but_sigs x) = g x) -> g s' = g s2).
  { intros A g Hg. rewrite <- (Hg s'), <- (Hg s2). congruence. }
  assert (Qs : st_schemata s' = m) by (rewrite (Q _ st_schemata), E2, E1 by reflexivity; reflexivity).
  assert (Qi : st_ifaces s' = st_ifaces (defined k s)) by (rewrite (Q _ st_ifaces), E2, E1 by reflexivity; reflexivity).
  split; [|intros im Hin; apply defined_known, Kn, Hin].
  assert (Fd : forall id, mget id (st_schemata (defined k s)) = match mget id (st_schemata s) with
      | Some si => Some si
      | None => option_map (fun sc => {| si_schema := sc; si_impls := [] |}) (find (fun sc => sch_id sc =? id) (k_schemata k)) end).
  { intros id. unfold defined. rewrite mid_state. cbn [st_schemata with_schemata with_ifaces with_libs with_types]. apply add_new_get. }
  constructor.
  - intros id. rewrite Qs. specialize (Fm id). rewrite Fd in Fm.
    destruct (mget id (st_schemata s)) as [si|].
    + destruct (mget id m); [|contradiction]. simpl. f_equal. apply Fm.
    + destruct (find _ _); simpl in Fm |- *; destruct (mget id m); try contradiction; [|reflexivity].
      simpl. f_equal. apply Fm.
  - intros id. rewrite Qi. unfold defined. rewrite mid_state. cbn [st_ifaces with_schemata with_ifaces with_libs with_types].
    rewrite add_new_get. destruct (mget id (st_ifaces s)); [reflexivity|]. destruct (find _ _); reflexivity.
  - intros id name. unfold impl_under. rewrite Qs. specialize (Fm id). rewrite Fd in Fm.
    assert (Ea : forall im, impl_at s' id name im = impl_at (defined k s) id name im)
      by (intros im; unfold impl_at; rewrite Qi; reflexivity).
    assert (Ef : find_last (impl_at s' id name) (k_impls k) = find_last (impl_at (defined k s) id name) (k_impls k)).
    { unfold find_last. generalize (rev (k_impls k)). induction l as [|x l IH]; simpl; [reflexivity|]. rewrite Ea, IH. reflexivity. }
    rewrite Ef. destruct (mget id (st_schemata s)) as [si|] eqn:Es.
    + destruct (mget id m); [|contradiction]. destruct Fm as [_ ->]. reflexivity.
    + destruct (find _ (k_schemata k)) as [sc|] eqn:Eq; simpl in Fm; destruct (mget id m) as [si|] eqn:Em; try contradiction.
      * destruct Fm as [_ ->]. reflexivity.
      * destruct (find_last (impl_at (defined k s) id name) (k_impls k)) as [im|] eqn:El; [|reflexivity]. exfalso. clear Ef.
        unfold find_last in El. apply find_some in El as [Hin Hat]. apply in_rev in Hin.
        destruct (Kn im Hin) as [Kn1 _]. unfold impl_at in Hat. apply andb_true_iff in Hat as [Hs _]. apply N.eqb_eq in Hs.
        rewrite Hs, Fd, Es, Eq in Kn1. apply Kn1. reflexivity.
  - intros id. rewrite (Q _ st_types), E2, E1 by reflexivity. unfold defined. rewrite mid_state. cbn. apply overwrite_get.
  - intros id. rewrite (Q _ st_libs), E2, E1 by reflexivity. unfold defined. rewrite mid_state. cbn. apply overwrite_get.
  - intros c x. rewrite (Q _ (fun s => stash_supplements s c)) by reflexivity. rewrite Sm. rewrite E1. reflexivity.
  - rewrite (Q _ st_geneses), (Q _ st_bundles), (Q _ st_extensions), (Q _ st_witnesses), (Q _ st_attachments), (Q _ st_seals) by reflexivity.
    rewrite E2, E1. repeat split; reflexivity.
Qed.
