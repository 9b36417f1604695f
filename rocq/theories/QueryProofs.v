(** * Proofs about lists of contracts, opening them and builders *)
From Verif Require Import Base StM Core SupplModel ContainerModel PIndexModel StateModel StateSpec StateProofs StashModel StashSpec StashProofs StockModel StockSpec StockProofs
  ConsignModel ConsignProofs ConsignAccept IfaceModel BuilderModel BuilderComplete ComposeModel QueryModel QuerySpec.
Local Open Scope N_scope.

(** ** Maps *)

Lemma in_vals {V} (m : omap N V) v : msorted m -> In v (mvals m) <-> exists k, mget k m = Some v.
Proof.
  intros S. unfold mvals. rewrite in_map_iff. split.
  - intros ([k x] & <- & Hin). exists k. apply In_mget; assumption.
  - intros (k & E). exists (k, v). split; [reflexivity|]. apply mget_In, E.
Qed.
Lemma N_lt (a b : N) : cmp a b = Lt <-> a < b.
Proof. cbn [cmp OrdN]. apply N.compare_lt_iff. Qed.
Lemma find_vals {V} (f : V -> bool) (m : omap N V) v : msorted m -> find f (mvals m) = Some v <->
  exists k, mget k m = Some v /\ f v = true /\ forall k' v', mget k' m = Some v' -> f v' = true -> k <= k'.
Proof.
  induction m as [|[k x] m IH]; intros S.
  - cbn. split; [discriminate|]. intros (k & E & _). discriminate E.
  - pose proof (msorted_inv _ _ S) as [S' F]. rewrite Forall_forall in F.
    assert (L : forall k' v', mget k' m = Some v' -> k < k').
    { intros k' v' E. apply mget_In, F in E. unfold key_lt in E. cbn [fst] in E. apply N_lt, E. }
    cbn [mvals map snd find]. fold (mvals m). destruct (f x) eqn:Ex.
    + split.
      * intros E. injection E as ->. exists k. split; [cbn [mget]; rewrite keqb_refl; reflexivity|]. split; [exact Ex|].
        intros k' v' E _. cbn [mget] in E. destruct (keqb_spec k' k) as [Ek|Nk]; [lia|]. specialize (L _ _ E). lia.
      * intros (k' & E & Ev & M). cbn [mget] in E. destruct (keqb_spec k' k) as [Ek|Nk]; [exact E|].
        exfalso. specialize (L _ _ E). specialize (M k x). cbn [mget] in M. rewrite keqb_refl in M. specialize (M eq_refl Ex). lia.
    + rewrite (IH S'). split.
      * intros (k' & E & Ev & M). exists k'. pose proof (L _ _ E) as Lk. split; [cbn [mget]; destruct (keqb_spec k' k); [lia|exact E]|]. split; [exact Ev|].
        intros k2 v2 E2 H2. cbn [mget] in E2. destruct (keqb_spec k2 k) as [Ek|Nk]; [injection E2 as ->; congruence|]. apply (M _ _ E2 H2).
      * intros (k' & E & Ev & M). cbn [mget] in E. destruct (keqb_spec k' k) as [Ek|Nk]; [injection E as ->; congruence|].
        exists k'. split; [exact E|]. split; [exact Ev|]. intros k2 v2 E2 H2. apply (M k2 v2); [|exact H2].
        cbn [mget]. destruct (keqb_spec k2 k) as [Ek|Nk2]; [specialize (L _ _ E2); lia|exact E2].
Qed.

(** ** The stash of a stock *)

Lemma stock_stash {OG : OrdKey GlobalOut} H K calls : exists l, sk_stash (stock_after H K sk_empty calls) = stash_after H K st_empty l.
Proof. destruct (after_moved H K calls sk_empty) as (_ & _ & (l & E & _)). exists l. exact E. Qed.
Lemma stock_filed {OG : OrdKey GlobalOut} H K calls : let s := sk_stash (stock_after H K sk_empty calls) in filed H s /\ stash_sorted s.
Proof.
  destruct (stock_stash H K calls) as [l ->]. split; [apply filed_after|apply sorted_after, sorted_empty].
Qed.

Section Stash.
Context (H : Hashes) (s : MemStash) (F : filed H s) (So : stash_sorted s).

Lemma by_id id i : iface_by_id s id = Ok i <-> mget id (st_ifaces s) = Some i.
Proof. unfold iface_by_id. destruct (mget id (st_ifaces s)); cbn; split; intros E; try discriminate; [apply Ok_inj in E|apply Some_inj in E]; congruence. Qed.
Lemma by_schema id si : stash_schema s id = Ok si <-> mget id (st_schemata s) = Some si.
Proof. unfold stash_schema. destruct (mget id (st_schemata s)); cbn; split; intros E; try discriminate; [apply Ok_inj in E|apply Some_inj in E]; congruence. Qed.
Lemma by_genesis id g : stash_genesis s id = Ok g <-> mget id (st_geneses s) = Some g.
Proof. unfold stash_genesis. destruct (mget id (st_geneses s)); cbn; split; intros E; try discriminate; [apply Ok_inj in E|apply Some_inj in E]; congruence. Qed.

Lemma impl_unique id si iface im im' : stash_schema s id = Ok si -> implements si iface im -> implements si iface im' -> im = im'.
Proof.
  intros Es (n & E & Ei) (n' & E' & Ei'). apply by_schema in Es.
  destruct (fi_impl _ _ F _ _ _ _ Es E) as (_ & i & Gi & Ni). destruct (fi_impl _ _ F _ _ _ _ Es E') as (_ & i' & Gi' & Ni').
  rewrite Ei in Gi. rewrite Ei' in Gi'. rewrite Gi in Gi'. injection Gi' as <-. subst n n'. rewrite E in E'. injection E' as <-. reflexivity.
Qed.
Lemma get_implements id si iface im : stash_schema s id = Ok si -> impl_get si iface = Some im <-> implements si iface im.
Proof.
  intros Es. pose proof (proj1 (by_schema _ _) Es) as Em. unfold impl_get.
  rewrite (find_vals (fun i => im_iface i =? iface) _ _ (so_impls _ So _ _ Em)). split.
  - intros (k & E & Ei & _). apply N.eqb_eq in Ei. exists k. auto.
  - intros (k & E & Ei). exists k. split; [exact E|]. split; [apply N.eqb_eq, Ei|].
    intros k' v' E' Ei'. apply N.eqb_eq in Ei'.
    destruct (fi_impl _ _ F _ _ _ _ Em E) as (_ & i & Gi & Ni). destruct (fi_impl _ _ F _ _ _ _ Em E') as (_ & i' & Gi' & Ni').
    rewrite Ei in Gi. rewrite Ei' in Gi'. rewrite Gi in Gi'. injection Gi' as <-. subst. lia.
Qed.
Lemma get_none id si iface : stash_schema s id = Ok si -> impl_get si iface = None <-> unimplemented si iface.
Proof.
  intros Es. destruct (impl_get si iface) as [im|] eqn:E.
  - split; [discriminate|]. intros U. apply (get_implements _ _ _ _ Es) in E. destruct (U _ E).
  - split; [|reflexivity]. intros _ im X. apply (get_implements _ _ _ _ Es) in X. congruence.
Qed.
Lemma abstractable_best id si i im : stash_schema s id = Ok si -> abstractable_impl i si = Some im <-> best_for i si im.
Proof.
  intros Es. unfold abstractable_impl, find_abstractable, best_for. destruct (impl_get si (if_id i)) as [x|] eqn:E.
  - pose proof (proj1 (get_implements _ _ _ _ Es) E) as X. split.
    + intros Y. injection Y as <-. left. exact X.
    + intros [Y|[U _]]; [|destruct (U _ X)]. f_equal. exact (impl_unique _ _ _ _ _ Es X Y).
  - pose proof (proj1 (get_none _ _ _ Es) E) as U. rewrite find_map_Some. split.
    + intros (l1 & a & l2 & El & Ea & Fa). right. split; [exact U|]. exists (rev l2), a, (rev l1).
      split; [rewrite <- (rev_involutive (if_inherits i)), El, rev_app_distr; cbn; rewrite <- app_assoc; reflexivity|].
      split; [apply (get_implements _ _ _ _ Es), Ea|]. intros b Hb. apply in_rev in Hb. rewrite Forall_forall in Fa. apply (get_none _ _ _ Es), Fa, Hb.
    + intros [X|(_ & l1 & a & l2 & El & Ea & Fa)]; [destruct (U _ X)|]. exists (rev l2), a, (rev l1).
      split; [rewrite El, rev_app_distr; cbn; rewrite <- app_assoc; reflexivity|].
      split; [apply (get_implements _ _ _ _ Es), Ea|]. apply Forall_forall. intros b Hb. apply in_rev in Hb. apply (get_none _ _ _ Es), Fa, Hb.
Qed.
Lemma abstractable_none id si i : stash_schema s id = Ok si -> abstractable_impl i si = None <-> forall im, ~ best_for i si im.
Proof.
  intros Es. destruct (abstractable_impl i si) as [x|] eqn:E.
  - apply (abstractable_best _ _ _ _ Es) in E. split; [discriminate|]. intros N. destruct (N _ E).
  - split; [|reflexivity]. intros _ im X. apply (abstractable_best _ _ _ _ Es) in X. congruence.
Qed.

Lemma existsb_in x ids : existsb (N.eqb x) ids = true <-> In x ids.
Proof. rewrite existsb_exists. split; [intros (y & Hy & E); apply N.eqb_eq in E; subst; exact Hy|intros Hx; exists x; split; [exact Hx|apply N.eqb_refl]]. Qed.
Lemma impl_for_ok id si ids im : stash_schema s id = Ok si -> impl_for s ids si = Ok im <-> class_impl s ids si im.
Proof.
  intros Es. pose proof (proj1 (by_schema _ _) Es) as Em. pose proof (so_impls _ So _ _ Em) as Sm. unfold impl_for, class_impl.
  destruct (find (fun im => existsb (N.eqb (im_iface im)) ids) (mvals (si_impls si))) as [x|] eqn:Ex.
  - apply (find_vals _ _ _ Sm) in Ex as (k & E & Ei & M). apply existsb_in in Ei. split.
    + intros Y. apply Ok_inj in Y as <-. left. exists k. split; [exact E|]. split; [exact Ei|]. intros k' im' E' I'. apply (M k' im' E'), existsb_in, I'.
    + intros [(k' & E' & Ei' & M')|(U & _)].
      * assert (k = k') by (assert (k <= k') by (apply (M k' im E'), existsb_in, Ei'); assert (k' <= k) by (apply (M' k x E Ei)); lia). subst k'. rewrite E in E'. injection E' as <-. reflexivity.
      * destruct (U _ Ei x). exists k. auto.
  - assert (U : forall id, In id ids -> unimplemented si id).
    { intros i Hi im' (k & E & Ei). apply (find_none _ _) with (x := im') in Ex; [|apply in_vals; [exact Sm|exists k; exact E]].
      rewrite Ei in Ex. apply existsb_in in Hi. congruence. }
    assert (Q : forall i b, (match iface_by_id s i with Ok i => abstractable_impl i si | _ => None end) = Some b <-> exists x, iface_by_id s i = Ok x /\ best_for x si b).
    { intros i b. destruct (iface_by_id s i) as [x|e|]; [|split; [discriminate|intros (x & X & _); discriminate X] ..].
      rewrite (abstractable_best _ _ _ _ Es). split; [intros X; exists x; auto|]. intros (y & Y & B). apply Ok_inj in Y as ->. exact B. }
    assert (Qn : forall i, (match iface_by_id s i with Ok i => abstractable_impl i si | _ => None end) = None <-> forall x b, iface_by_id s i = Ok x -> ~ best_for x si b).
    { intros i. destruct (iface_by_id s i) as [x|e|]; [|split; [discriminate|reflexivity] ..].
      rewrite (abstractable_none _ _ _ Es). split; [intros X y b Y; apply Ok_inj in Y as <-; apply X|]. intros X b. apply (X x b eq_refl). }
    destruct (find_map _ ids) as [x|] eqn:Ef.
    + apply find_map_Some in Ef as (l1 & i & l2 & El & Ea & Fa). apply Q in Ea as (i' & Ei & B). rewrite Forall_forall in Fa. split.
      * intros Y. apply Ok_inj in Y as <-. right. split; [exact U|]. exists l1, i, l2, i'. split; [exact El|]. split; [exact Ei|]. split; [exact B|].
        intros id' j b Hj Ej. apply Fa in Hj. exact (proj1 (Qn id') Hj j b Ej).
      * intros [(k & E & Ei2 & _)|(_ & m1 & j & m2 & j' & Em' & Ej & Bj & Mj)].
        { exfalso. apply (U _ Ei2 im). exists k. auto. }
        assert (Z : Some x = Some im); [|injection Z as ->; reflexivity].
        transitivity (find_map (fun id => match iface_by_id s id with Ok i => abstractable_impl i si | _ => None end) ids).
        { symmetry. apply find_map_Some. exists l1, i, l2. split; [exact El|]. split; [apply Q; exists i'; auto|]. apply Forall_forall. exact Fa. }
        apply find_map_Some. exists m1, j, m2. split; [exact Em'|]. split; [apply Q; exists j'; auto|]. apply Forall_forall. intros id' Hi. apply Qn. intros y b Ey. apply (Mj id' y b Hi Ey).
    + apply find_map_None in Ef. rewrite Forall_forall in Ef. split; [destruct ids; discriminate|].
      intros [(k & E & Ei2 & _)|(_ & m1 & j & m2 & j' & Em' & Ej & Bj & Mj)].
      * exfalso. apply (U _ Ei2 im). exists k. auto.
      * exfalso. assert (Hj : In j ids) by (rewrite Em'; apply in_or_app; right; left; reflexivity). apply Ef in Hj. exact (proj1 (Qn j) Hj j' im Ej Bj).
Qed.
Lemma impl_for_panic si ids : impl_for s ids si = Panic -> ids = [].
Proof.
  unfold impl_for. destruct (find _ _); [discriminate|]. destruct (find_map _ _); [discriminate|]. destruct ids; [reflexivity|discriminate].
Qed.

(** *** Extraction *)
Definition pick_step (f : N -> result ConsignError N) (m : omap N N) (id : N) : result ConsignError (omap N N) := let! t := f id in Ok (minsert id t m).
Lemma pick_sorted (f : N -> result ConsignError N) ids : forall m m', msorted m -> rfold (pick_step f) m ids = Ok m' -> msorted m'.
Proof.
  induction ids as [|id ids IH]; intros m m' S E; [apply Ok_inj in E as <-; exact S|]. cbn [rfold] in E. unfold pick_step in E at 1.
  destruct (f id) as [t| |]; cbn [rbind] in E; try discriminate. apply (IH _ _ (minsert_sorted id t m S) E).
Qed.
Lemma pick_total (f : N -> result ConsignError N) ids : (forall id, In id ids -> exists t, f id = Ok t) -> forall m, exists m', rfold (pick_step f) m ids = Ok m'.
Proof.
  induction ids as [|id ids IH]; intros Hf m; [exists m; reflexivity|]. cbn [rfold]. unfold pick_step at 1.
  destruct (Hf id (or_introl eq_refl)) as [t ->]. cbn [rbind]. apply IH. intros i Hi. apply Hf. right. exact Hi.
Qed.
Lemma extract_iff sc i types libs : extract s sc [i] = Ok (types, libs) <-> extracted s sc i types libs.
Proof.
  assert (FM : flat_map if_types [i] = if_types i) by (cbn; apply app_nil_r).
  assert (P : forall r, extract s sc [i] = Ok r -> extracted s sc i (fst r) (snd r)).
  { intros r E. pose proof (extract_ok _ _ _ _ E) as (X1 & X2 & X3 & X4). rewrite FM in *.
    constructor.
    - intros id t. rewrite X1, in_app_iff. reflexivity.
    - intros id Hi. destruct (X2 id) as [t Et]; [apply in_app_iff; exact Hi|]. congruence.
    - exact X3.
    - intros id Hi. destruct (X4 id Hi) as [t Et]. congruence.
    - unfold extract in E. destruct (@rfold ConsignError _ _ _ _ (sch_types sc ++ _)) as [ty|e|] eqn:E1; cbn [rbind] in E; try discriminate.
      destruct (@rfold ConsignError _ _ _ _ (sch_libs sc)) as [lb|e|] eqn:E2; cbn [rbind] in E; try discriminate.
      destruct (len lb <=? U8MAX); [|discriminate]. apply Ok_inj in E as <-. cbn [fst snd].
      split; [exact (pick_sorted (fun id => ok_or (TypeAbsent id) (mget id (st_types s))) _ _ _ (SSorted_nil _) E1)|exact (pick_sorted (fun id => of_stash (stash_lib s id)) _ _ _ (SSorted_nil _) E2)].
    - unfold extract in E. destruct (@rfold ConsignError _ _ _ _ (sch_types sc ++ _)) as [ty|e|] eqn:E1; cbn [rbind] in E; try discriminate.
      destruct (@rfold ConsignError _ _ _ _ (sch_libs sc)) as [lb|e|] eqn:E2; cbn [rbind] in E; try discriminate.
      destruct (N.leb_spec (len lb) U8MAX); [|discriminate]. apply Ok_inj in E as <-. exact H0. }
  split; [intros E; exact (P _ E)|]. intros [X1 X2 X3 X4 [S1 S2] X6].
  assert (A : forall m1 m2 : omap N N, (forall k v, mget k m1 = Some v <-> mget k m2 = Some v) -> forall k, mget k m1 = mget k m2).
  { intros m1 m2 Hm k. destruct (mget k m1) as [v|] eqn:Ev; [symmetry; apply Hm; exact Ev|]. destruct (mget k m2) as [v|] eqn:Ev2; [|reflexivity]. apply Hm in Ev2. congruence. }
  destruct (pick_total (fun id => ok_or (TypeAbsent id) (mget id (st_types s))) (sch_types sc ++ flat_map if_types [i])) with (m := @nil (N * N)) as [ty Ety].
  { intros id Hi. rewrite FM, in_app_iff in Hi. specialize (X2 id Hi). destruct (mget id (st_types s)) as [t|]; [exists t; reflexivity|congruence]. }
  destruct (pick_total (fun id => of_stash (stash_lib s id)) (sch_libs sc)) with (m := @nil (N * N)) as [lb Elb].
  { intros id Hi. specialize (X4 id Hi). unfold stash_lib. destruct (mget id (st_libs s)) as [t|]; [exists t; reflexivity|congruence]. }
  assert (Ll : lb = libs).
  { apply msorted_ext; [exact (pick_sorted _ _ _ _ (SSorted_nil _) Elb)|exact S2|]. apply A. intros k v. rewrite X3.
    pose proof (pick_ok (fun id => of_stash (stash_lib s id)) _ _ Elb) as [Q _]. rewrite Q. unfold of_stash, stash_lib.
    destruct (mget k (st_libs s)) as [t|]; cbn; split; intros [? Y]; (split; [assumption|]); try discriminate Y; [apply Ok_inj in Y|apply Some_inj in Y]; congruence. }
  assert (Lt : ty = types).
  { apply msorted_ext; [exact (pick_sorted _ _ _ _ (SSorted_nil _) Ety)|exact S1|]. apply A. intros k v. rewrite X1.
    pose proof (pick_ok (fun id => ok_or (TypeAbsent id) (mget id (st_types s))) _ _ Ety) as [Q _]. rewrite Q, FM, in_app_iff.
    destruct (mget k (st_types s)) as [t|]; cbn; split; intros [? Y]; (split; [assumption|]); try discriminate Y; [apply Ok_inj in Y|apply Some_inj in Y]; congruence. }
  subst ty lb. unfold extract. unfold pick_step in Ety, Elb. rewrite Ety. cbn [rbind]. rewrite Elb. cbn [rbind].
  apply N.leb_le in X6. rewrite X6. reflexivity.
Qed.
End Stash.

(** ** Schemata of contracts in the state *)

Section Schemas.
Context {OG : OrdKey GlobalOut} (H : Hashes).

Lemma add_keeps cs ow o cs' : add_operation H cs ow o = Ok cs' -> cs_schema cs' = cs_schema cs.
Proof.
  unfold add_operation. destruct (add_globals cs (op_id H o) ow o) as [cs1|e|] eqn:E1; cbn [rbind]; try discriminate. intros E2.
  transitivity (cs_schema cs1).
  - clear E1. revert cs1 E2. unfold add_assignments. generalize (op_assigns o) as l. induction l as [|p l IH]; intros cs1 E; cbn [rfold] in E; [apply Ok_inj in E as <-; reflexivity|].
    destruct (process _ _ _ _ _) as [outs|e|]; cbn [rbind] in E; try discriminate. rewrite (IH _ E). reflexivity.
  - clear E2. revert cs E1. unfold add_globals. generalize (op_globals o) as l. induction l as [|p l IH]; intros cs E; cbn [rfold] in E; [apply Ok_inj in E as <-; reflexivity|].
    destruct (mget (fst p) (cs_global cs)) as [g|]; cbn [expect rbind] in E; try discriminate.
    match type of E with context [rfold ?f (mg_known g) ?l0] => destruct (rfold f (mg_known g) l0) as [known|e|]; cbn [rbind] in E; try discriminate end.
    rewrite (IH _ E). reflexivity.
Qed.

(** [R] holds of every contract in the state and its schema. *)
Definition all_schemas (R : N -> N -> Prop) (s : MemState) : Prop := forall cid cs, mget cid (ms_contracts s) = Some cs -> R cid (cs_schema cs).
Definition keeps {A} (R : N -> N -> Prop) (m : SM A) : Prop := forall s, all_schemas R s -> all_schemas R (fst (m s)).

Lemma keeps_ret {A} R (a : A) : keeps R (ret a).
Proof. intros s S. exact S. Qed.
Lemma keeps_lift {A} R (x : result StateError A) : keeps R (lift x).
Proof. intros s S. exact S. Qed.
Lemma keeps_bind {A B} R (m : SM A) (k : A -> SM B) : keeps R m -> (forall a, keeps R (k a)) -> keeps R (bind m k).
Proof. intros Hm Hk s S. unfold bind. specialize (Hm s S). destruct (m s) as [s' [a|e|]]; [apply Hk, Hm|exact Hm ..]. Qed.
Lemma keeps_mfor {A} R (f : A -> SM unit) l : (forall a, keeps R (f a)) -> keeps R (mfor f l).
Proof. intros Hf. induction l as [|a l IH]; [apply keeps_ret|]. apply keeps_bind; [apply Hf|intros _; exact IH]. Qed.
Lemma keeps_on R cid ow o : keeps R (on_contract cid (fun cs => add_operation H cs ow o)).
Proof.
  intros s S. unfold on_contract. destruct (mget cid (ms_contracts s)) as [cs|] eqn:E; [|exact S].
  destruct (add_operation H cs ow o) as [cs'|e|] eqn:Ea; [|exact S ..]. cbn [fst]. intros cid' x. cbn [set_states ms_contracts].
  rewrite mget_insert. destruct (keqb_spec cid' cid) as [Ek|Nk]; [|apply S]. intros X. apply Some_inj in X as <-. subst cid'.
  rewrite (add_keeps _ _ _ _ Ea). apply S, E.
Qed.
Lemma keeps_witness R w ord : keeps R (set_witness w ord).
Proof. intros s S. unfold set_witness. destruct (cinsert _ _ _ _); exact S. Qed.
Lemma keeps_transition R cid t w ord : keeps R (add_transition H cid t w ord).
Proof. apply keeps_bind; [apply keeps_witness|]. intros _. apply keeps_on. Qed.
Lemma keeps_extension R cid t w ord : keeps R (add_extension H cid t w ord).
Proof. apply keeps_bind; [apply keeps_witness|]. intros _. apply keeps_on. Qed.
Lemma keeps_register (R : N -> N -> Prop) schema g : R (contract_id H g) (sch_id schema) -> keeps R (st_register H schema g).
Proof.
  intros Hr s S. unfold st_register, get. unfold bind at 1. cbv beta iota.
  match goal with |- all_schemas R (fst ((?m ;;! ?k) s)) => assert (Hm : all_schemas R (fst (m s))) end.
  { destruct (mhas (contract_id H g) (ms_contracts s)); [exact S|].
    destruct (cinsert U8MAX _ _ _) as [m|] eqn:E; [|exact S]. apply cinsert_inv in E as [-> _]. cbn. intros cid cs. cbn [set_states ms_contracts].
    rewrite mget_insert. destruct (keqb_spec cid (contract_id H g)) as [Ek|Nk]; [|apply S]. intros X. apply Some_inj in X as <-. subst cid. exact Hr. }
  unfold bind. match goal with |- context [match ?m s with _ => _ end] => destruct (m s) as [s' [a|e|]] end; [|exact Hm ..].
  apply keeps_on, Hm.
Qed.

Lemma state_call_schemas (R : N -> N -> Prop) x : (forall c r, x = StConsignment c r -> R (contract_id H (c_genesis c)) (sch_id (c_schema c))) -> keeps R (state_call H x).
Proof.
  intros Hx. destruct x as [c r|cid b w r|r after]; cbn [state_call].
  - unfold update_from_consignment. apply keeps_bind; [apply keeps_register, (Hx c r eq_refl)|]. intros _.
    apply keeps_bind; [apply keeps_mfor; intros wb; apply keeps_mfor; intros t; apply keeps_bind; [apply keeps_lift|intros ord; apply keeps_transition]|].
    intros _. apply keeps_mfor. intros e. destruct (extension_witness c (op_id H e)); [|apply keeps_ret].
    apply keeps_bind; [apply keeps_lift|]. intros ord. apply keeps_extension.
  - unfold update_from_bundle. intros s S. unfold get. unfold bind at 1. cbv beta iota.
    refine (keeps_bind R _ _ _ _ s S).
    + destruct (mhas cid (ms_contracts s)); [apply keeps_ret|]. intros s' S'. exact S'.
    + intros _. apply keeps_mfor. intros t. apply keeps_bind; [apply keeps_lift|]. intros ord. apply keeps_transition.
  - apply keeps_bind; [|intros _; apply keeps_ret]. intros s S. unfold update_witnesses, bind, get, put, ret. cbn. exact S.
Qed.
Lemma state_calls_schemas (R : N -> N -> Prop) l : (forall c r, In (StConsignment c r) l -> R (contract_id H (c_genesis c)) (sch_id (c_schema c))) ->
  forall s, all_schemas R s -> all_schemas R (state_calls H l s).
Proof.
  induction l as [|x l IH]; intros Hl s S; [exact S|]. apply IH; [intros c r Hin; apply (Hl c r); right; exact Hin|].
  apply state_call_schemas; [|exact S]. intros c r ->. apply (Hl c r). left. reflexivity.
Qed.

Lemma accepted_schema K calls cid st : contract_state (sk_state (stock_after H K sk_empty calls)) cid = Ok st ->
  exists c r, In (SkAccept c r) calls /\ contract_id H (c_genesis c) = cid /\ sch_id (c_schema c) = cs_schema (mc_state st).
Proof.
  intros E. unfold contract_state in E. destruct (mget cid (ms_contracts _)) as [cs|] eqn:Ec; [|discriminate]. cbn in E. apply Ok_inj in E as <-. cbn [mc_state].
  destruct (after_moved H K calls sk_empty) as (_ & (l & El & Hl) & _). rewrite El in Ec.
  apply (state_calls_schemas (fun cid sc => exists c r, In (SkAccept c r) calls /\ contract_id H (c_genesis c) = cid /\ sch_id (c_schema c) = sc) l) in Ec; [exact Ec| |].
  - intros c' r Hin. destruct (Hl _ Hin) as (call & s0 & Hc & X). destruct call as [c r'| | | | |]; cbn in X; try contradiction.
    + destruct X as (c2 & Er & X). injection X as <- <-. destruct (resolve_alike _ _ _ _ Er) as [-> _]. exists c, r. auto.
    + destruct X as (p & _ & X). discriminate X.
    + discriminate X.
  - intros cid' cs'. discriminate.
Qed.
Lemma same_schema g g' : collision_free H -> contract_id H g = contract_id H g' -> op_ty g = op_ty g'.
Proof.
  intros CF E. apply (same_id_conceal H g g' CF) in E. apply (f_equal op_ty) in E. exact E.
Qed.
Lemma state_schema K calls cid st g : collision_free H -> schemas_fit calls ->
  contract_state (sk_state (stock_after H K sk_empty calls)) cid = Ok st -> stash_genesis (sk_stash (stock_after H K sk_empty calls)) cid = Ok g ->
  cs_schema (mc_state st) = op_ty g.
Proof.
  intros CF Fit Es Eg. destruct (accepted_schema _ _ _ _ Es) as (c & r & Hin & Ec & <-). rewrite (Fit _ _ Hin).
  destruct (stock_filed H K calls) as [F _]. apply by_genesis in Eg. apply (fi_genesis _ _ F) in Eg. apply same_schema; [exact CF|congruence].
Qed.
End Schemas.

(** ** Opening contracts *)

Section Open.
Context (H : Hashes) (h : Heads) (s : Stock) (F : filed H (sk_stash s)) (So : stash_sorted (sk_stash s)).

Lemma info_describes g x : info_with H h g = x <-> describes H h g x.
Proof.
  unfold info_with, date. split.
  - intros <-. constructor; cbn; try reflexivity. unfold moment. destruct (hd_is_date h _); auto.
  - destruct x as [a b c d e f]. intros [E1 E2 E3 E4 E5 E6]. cbn in *. unfold contract_id, g_schema. subst.
    destruct E4 as [[-> ->]|[-> ->]]; reflexivity.
Qed.
Lemma info_ok cid x : contract_info H h s cid = Ok x <-> exists g, stash_genesis (sk_stash s) cid = Ok g /\ describes H h g x.
Proof.
  unfold contract_info. destruct (stash_genesis (sk_stash s) cid) as [g|e|]; cbn.
  - split.
    + intros E. apply Ok_inj, info_describes in E. exists g. auto.
    + intros (g' & E & D). apply Ok_inj in E as <-. f_equal. apply info_describes, D.
  - split; [discriminate|intros (g & E & _); discriminate E].
  - split; [discriminate|intros (g & E & _); discriminate E].
Qed.
Lemma info_id cid x : contract_info H h s cid = Ok x -> ci_id x = cid.
Proof. intros E. apply info_ok in E as (g & Eg & D). rewrite (de_id _ _ _ _ D). apply by_genesis in Eg. exact (fi_genesis _ _ F _ _ Eg). Qed.

Lemma raw_ok cid si st info : contract_raw H h s cid = Ok (si, st, info) <->
  contract_state (sk_state s) cid = Ok st /\ stash_schema (sk_stash s) (cs_schema (mc_state st)) = Ok si /\ contract_info H h s cid = Ok info.
Proof.
  unfold contract_raw. destruct (contract_state (sk_state s) cid) as [x|e|]; cbn [q_state q_stash rmap_err rbind].
  2, 3: split; [discriminate|intros (E & _); discriminate E].
  destruct (stash_schema (sk_stash s) (cs_schema (mc_state x))) as [y|e|] eqn:Ey; cbn [q_state q_stash rmap_err rbind].
  2, 3: split; [discriminate|intros (E & E2 & _); apply Ok_inj in E as ->; rewrite Ey in E2; discriminate E2].
  destruct (contract_info H h s cid) as [z|e|]; cbn [rbind].
  2, 3: split; [discriminate|intros (_ & _ & E); discriminate E].
  split.
  - intros E. apply Ok_inj in E. injection E as <- <- <-. auto.
  - intros (E1 & E2 & E3). apply Ok_inj in E1 as <-. apply Ok_inj in E3 as <-. rewrite Ey in E2. apply Ok_inj in E2 as <-. reflexivity.
Qed.
Lemma raw_panic cid : contract_raw H h s cid <> Panic.
Proof.
  unfold contract_raw, contract_info, contract_state, stash_schema, stash_genesis. destruct (mget cid _); cbn; [|discriminate].
  destruct (mget (cs_schema c) _); cbn; [|discriminate]. destruct (mget cid _); discriminate.
Qed.

Lemma open_opened cid si ct : opened H h s cid si ct <-> contract_raw H h s cid = Ok (si, ct_state ct, ct_info ct) /\ ct_schema ct = si_schema si.
Proof.
  rewrite raw_ok, info_ok. split.
  - intros [E1 E2 E3 E4]. auto.
  - intros ((E1 & E2 & E3) & E4). constructor; assumption.
Qed.
Lemma opened_schema cid si ct : opened H h s cid si ct -> exists id, stash_schema (sk_stash s) id = Ok si.
Proof. intros [_ E _ _]. eexists. exact E. Qed.

Lemma iface_open cid r ct : contract_iface H h s cid r = Ok ct <->
  exists si i libs, opened H h s cid si ct /\ find_iface (sk_stash s) r = Ok i /\ best_for i si (ct_impl ct) /\
    extracted (sk_stash s) (si_schema si) i (ct_types ct) libs.
Proof.
  unfold contract_iface. destruct (contract_raw H h s cid) as [[[si st] info]|e|] eqn:Er; cbn [rbind fst snd].
  2, 3: split; [discriminate|intros (si & i & l & O & _); apply open_opened in O as [O _]; congruence].
  pose proof (proj1 (raw_ok _ _ _ _) Er) as (_ & Es & _).
  destruct (find_iface (sk_stash s) r) as [i|e|]; cbn [q_stash rmap_err rbind].
  2, 3: split; [discriminate|intros (si' & i & l & _ & E & _); discriminate E].
  destruct (abstractable_impl i si) as [im|] eqn:Ei; cbn [ok_or rbind].
  - apply (abstractable_best H _ F So _ _ _ _ Es) in Ei as Bi.
    destruct (extract (sk_stash s) (si_schema si) [i]) as [[ty lb]|e|] eqn:Ex; cbn [q_extract rmap_err rbind fst snd].
    + split.
      * intros E. apply Ok_inj in E as <-. exists si, i, lb. split; [apply open_opened; cbn; auto|]. split; [reflexivity|]. split; [exact Bi|apply extract_iff, Ex].
      * intros (si' & i' & l & O & E & B & X). apply Ok_inj in E as <-. apply open_opened in O as [O Oc]. rewrite Er in O. apply Ok_inj in O. injection O as <- O2 O3.
        apply extract_iff in X. rewrite Ex in X. apply Ok_inj in X. injection X as -> ->.
        apply (abstractable_best H _ F So _ _ _ _ Es) in B. rewrite Ei in B. apply Some_inj in B. destruct ct; cbn in *; congruence.
    + split; [discriminate|]. intros (si' & i' & l & O & E & B & X). apply Ok_inj in E as <-. apply open_opened in O as [O Oc]. rewrite Er in O. apply Ok_inj in O. injection O as <- O2 O3.
      apply extract_iff in X. congruence.
    + split; [discriminate|]. intros (si' & i' & l & O & E & B & X). apply Ok_inj in E as <-. apply open_opened in O as [O Oc]. rewrite Er in O. apply Ok_inj in O. injection O as <- O2 O3.
      apply extract_iff in X. congruence.
  - split; [discriminate|]. intros (si' & i' & l & O & E & B & X). apply Ok_inj in E as <-. apply open_opened in O as [O Oc]. rewrite Er in O. apply Ok_inj in O. injection O as <- O2 O3.
    apply (abstractable_best H _ F So _ _ _ _ Es) in B. congruence.
Qed.
Lemma extract_panic st sc l : extract st sc l <> Panic.
Proof.
  unfold extract.
  assert (R : forall (f : N -> result ConsignError N) ids m, (forall id, f id <> Panic) -> @rfold ConsignError _ _ (fun m id => let! t := f id in Ok (minsert id t m)) m ids <> Panic).
  { intros f ids. induction ids as [|id ids IH]; intros m Hf; cbn [rfold]; [discriminate|]. destruct (f id) as [t|e|] eqn:Ef; cbn [rbind]; [apply IH, Hf|discriminate|destruct (Hf _ Ef)]. }
  match goal with |- context [@rfold ?E ?A ?B ?f [] (sch_types sc ++ ?y)] => pose proof (R (fun id => ok_or (TypeAbsent id) (mget id (st_types st))) (sch_types sc ++ y) []) as R1; destruct (@rfold E A B f [] (sch_types sc ++ y)) as [ty|e|] eqn:E1 end; cbn [rbind]; [|discriminate|].
  2: { exfalso. apply R1; [|reflexivity]. intros id. unfold ok_or. destruct (mget id (st_types st)); discriminate. }
  pose proof (R (fun id => of_stash (stash_lib st id)) (sch_libs sc) []) as R2.
  match goal with |- context [@rfold ?E ?A ?B ?f [] (sch_libs sc)] => destruct (@rfold E A B f [] (sch_libs sc)) as [lb|e|] eqn:E2 end; cbn [rbind]; [|discriminate|].
  - destruct (len lb <=? U8MAX); discriminate.
  - exfalso. apply R2; [|reflexivity]. intros id. unfold stash_lib. destruct (mget id (st_libs st)); discriminate.
Qed.
Lemma find_panic st r : find_iface st r <> Panic.
Proof. destruct r; cbn; [unfold iface_by_name; destruct (find _ _)|unfold iface_by_id; destruct (mget _ _)]; discriminate. Qed.
Lemma iface_panic cid r : contract_iface H h s cid r <> Panic.
Proof.
  unfold contract_iface. pose proof (raw_panic cid) as P. destruct (contract_raw H h s cid) as [[[si st] info]|e|]; cbn [rbind fst snd]; [|discriminate|congruence].
  pose proof (find_panic (sk_stash s) r) as P2. destruct (find_iface (sk_stash s) r) as [i|e|]; cbn [q_stash rmap_err rbind]; [|discriminate|congruence].
  destruct (abstractable_impl i si); cbn [ok_or rbind]; [|discriminate].
  pose proof (extract_panic (sk_stash s) (si_schema si) [i]) as P3. destruct (extract _ _ _); cbn; [discriminate|discriminate|congruence].
Qed.

Lemma class_open ids cid ct : contract_iface_class H h s ids cid = Ok ct <->
  exists si i libs, opened H h s cid si ct /\ class_impl (sk_stash s) ids si (ct_impl ct) /\ iface_by_id (sk_stash s) (im_iface (ct_impl ct)) = Ok i /\
    extracted (sk_stash s) (si_schema si) i (ct_types ct) libs.
Proof.
  unfold contract_iface_class. destruct (contract_raw H h s cid) as [[[si st] info]|e|] eqn:Er; cbn [rbind fst snd].
  2, 3: split; [discriminate|intros (si & i & l & O & _); apply open_opened in O as [O _]; congruence].
  pose proof (proj1 (raw_ok _ _ _ _) Er) as (_ & Es & _).
  destruct (impl_for (sk_stash s) ids si) as [im|e|] eqn:Ei; cbn [rbind].
  2, 3: split; [discriminate|intros (si' & i' & l & O & B & _); apply open_opened in O as [O Oc]; rewrite Er in O; apply Ok_inj in O; injection O as <- O2 O3;
        apply (impl_for_ok H _ F So _ _ _ _ Es) in B; congruence].
  apply (impl_for_ok H _ F So _ _ _ _ Es) in Ei as Bi.
  destruct (iface_by_id (sk_stash s) (im_iface im)) as [i|e|] eqn:Ef; cbn [q_stash rmap_err rbind].
  - destruct (extract (sk_stash s) (si_schema si) [i]) as [[ty lb]|e|] eqn:Ex; cbn [q_extract rmap_err rbind fst snd].
    + split.
      * intros E. apply Ok_inj in E as <-. exists si, i, lb. split; [apply open_opened; cbn; auto|]. split; [exact Bi|]. split; [exact Ef|apply extract_iff, Ex].
      * intros (si' & i' & l & O & B & E & X). apply open_opened in O as [O Oc]. rewrite Er in O. apply Ok_inj in O. injection O as <- O2 O3.
        apply (impl_for_ok H _ F So _ _ _ _ Es) in B. rewrite Ei in B. apply Ok_inj in B. rewrite <- B, Ef in E. apply Ok_inj in E as <-.
        apply extract_iff in X. rewrite Ex in X. apply Ok_inj in X. injection X as -> ->. destruct ct; cbn in *; congruence.
    + split; [discriminate|]. intros (si' & i' & l & O & B & E & X). apply open_opened in O as [O Oc]. rewrite Er in O. apply Ok_inj in O. injection O as <- O2 O3.
      apply (impl_for_ok H _ F So _ _ _ _ Es) in B. rewrite Ei in B. apply Ok_inj in B. rewrite <- B, Ef in E. apply Ok_inj in E as <-. apply extract_iff in X. congruence.
    + split; [discriminate|]. intros (si' & i' & l & O & B & E & X). apply open_opened in O as [O Oc]. rewrite Er in O. apply Ok_inj in O. injection O as <- O2 O3.
      apply (impl_for_ok H _ F So _ _ _ _ Es) in B. rewrite Ei in B. apply Ok_inj in B. rewrite <- B, Ef in E. apply Ok_inj in E as <-. apply extract_iff in X. congruence.
  - split; [discriminate|]. intros (si' & i' & l & O & B & E & X). apply open_opened in O as [O Oc]. rewrite Er in O. apply Ok_inj in O. injection O as <- O2 O3.
    apply (impl_for_ok H _ F So _ _ _ _ Es) in B. rewrite Ei in B. apply Ok_inj in B. congruence.
  - split; [discriminate|]. intros (si' & i' & l & O & B & E & X). apply open_opened in O as [O Oc]. rewrite Er in O. apply Ok_inj in O. injection O as <- O2 O3.
    apply (impl_for_ok H _ F So _ _ _ _ Es) in B. rewrite Ei in B. apply Ok_inj in B. congruence.
Qed.
Lemma class_panic ids cid : ids <> [] -> contract_iface_class H h s ids cid <> Panic.
Proof.
  intros N. unfold contract_iface_class. pose proof (raw_panic cid) as P. destruct (contract_raw H h s cid) as [[[si st] info]|e|]; cbn [rbind fst snd]; [|discriminate|congruence].
  pose proof (impl_for_panic (sk_stash s) si ids) as P1. destruct (impl_for (sk_stash s) ids si) as [im|e|]; cbn [rbind]; [|discriminate|destruct (N (P1 eq_refl))].
  pose proof (find_panic (sk_stash s) (RefId (im_iface im))) as P2. cbn [find_iface] in P2. destruct (iface_by_id (sk_stash s) (im_iface im)) as [i|e|]; cbn [q_stash rmap_err rbind]; [|discriminate|congruence].
  pose proof (extract_panic (sk_stash s) (si_schema si) [i]) as P3. destruct (extract _ _ _); cbn; [discriminate|discriminate|congruence].
Qed.

(** *** Contracts of a class *)
Lemma collect_ok {E A B} (f : A -> result E B) (l : list A) : (forall a, In a l -> f a <> Panic) -> forall acc,
  rfold (fun acc a => match f a with Ok b => Ok (acc ++ [b]) | Err _ => Ok acc | Panic => Panic end) acc l =
  (Ok (acc ++ filter_map (fun a => match f a with Ok b => Some b | _ => None end) l) : result E (list B)).
Proof.
  induction l as [|a l IH]; intros Hf acc; cbn [rfold filter_map]; [rewrite app_nil_r; reflexivity|].
  pose proof (Hf a (or_introl eq_refl)) as P. destruct (f a) as [b|e|]; cbn [rbind]; [| |congruence]; rewrite IH by (intros x Hx; apply Hf; right; exact Hx); [rewrite <- app_assoc; reflexivity|reflexivity].
Qed.

Lemma schemata_by_ok ids : ids <> [] -> schemata_by (sk_stash s) ids =
  Ok (filter (fun si => match impl_for (sk_stash s) ids si with Ok _ => true | _ => false end) (stash_schemata (sk_stash s))).
Proof.
  intros N. unfold schemata_by. generalize (stash_schemata (sk_stash s)) as l. intros l.
  enough (X : forall acc, rfold (fun acc si => match impl_for (sk_stash s) ids si with Ok _ => Ok (acc ++ [si]) | Err _ => Ok acc | Panic => Panic end) acc l =
    (Ok (acc ++ filter (fun si => match impl_for (sk_stash s) ids si with Ok _ => true | _ => false end) l) : result QueryError _)) by exact (X []).
  induction l as [|si l IH]; intros acc; cbn [rfold filter]; [rewrite app_nil_r; reflexivity|].
  pose proof (impl_for_panic (sk_stash s) si ids) as P. destruct (impl_for (sk_stash s) ids si) as [im|e|]; cbn [rbind]; [rewrite IH, <- app_assoc; reflexivity|apply IH|destruct (N (P eq_refl))].
Qed.
Lemma geneses_by_ok ids gs : ids <> [] -> geneses_by (sk_stash s) ids = Ok gs ->
  NoDup (map (contract_id H) gs) /\
  forall g, In g gs <-> exists cid si im, stash_genesis (sk_stash s) cid = Ok g /\ stash_schema (sk_stash s) (op_ty g) = Ok si /\ impl_for (sk_stash s) ids si = Ok im.
Proof.
  intros N. unfold geneses_by. rewrite schemata_by_ok by exact N. cbn [rbind]. intros E. apply Ok_inj in E as <-.
  set (L := filter _ (stash_schemata (sk_stash s))).
  assert (HL : forall si, In si L <-> exists id im, stash_schema (sk_stash s) id = Ok si /\ impl_for (sk_stash s) ids si = Ok im).
  { intros si. unfold L. rewrite filter_In. unfold stash_schemata. rewrite (in_vals _ _ (so_schemata _ So)). split.
    - intros ((id & E) & Ei). destruct (impl_for (sk_stash s) ids si) as [im| |] eqn:Em; try discriminate Ei. exists id, im. split; [apply by_schema, E|reflexivity].
    - intros (id & im & E & Ei). split; [exists id; apply by_schema, E|]. rewrite Ei. reflexivity. }
  assert (NL : NoDup (map (fun si => sch_id (si_schema si)) L)).
  { unfold L, stash_schemata.
    assert (M : map (fun si => sch_id (si_schema si)) (mvals (st_schemata (sk_stash s))) = mkeys (st_schemata (sk_stash s))).
    { unfold mvals, mkeys. rewrite map_map. apply map_ext_in. intros [k v] Hin. cbn. apply (fi_schema _ _ F). apply In_mget; [apply So|exact Hin]. }
    assert (NM : NoDup (map (fun si => sch_id (si_schema si)) (mvals (st_schemata (sk_stash s))))) by (rewrite M; apply msorted_NoDup, So).
    clear - NM. induction (mvals (st_schemata (sk_stash s))) as [|x l IH]; cbn in *; [constructor|]. apply NoDup_cons_iff in NM as [N1 N2].
    destruct (impl_for (sk_stash s) ids x); cbn; try (apply IH, N2). constructor; [|apply IH, N2]. intros Hin. apply N1. apply in_map_iff in Hin as (y & Ey & Hy).
    apply filter_In in Hy as [Hy _]. apply in_map_iff. exists y. auto. }
  assert (NG : NoDup (map (contract_id H) (stash_geneses (sk_stash s)))).
  { assert (M : map (contract_id H) (stash_geneses (sk_stash s)) = mkeys (st_geneses (sk_stash s))).
    { unfold stash_geneses, mvals, mkeys. rewrite map_map. apply map_ext_in. intros [k v] Hin. cbn. apply (fi_genesis _ _ F). apply In_mget; [apply So|exact Hin]. }
    rewrite M. apply msorted_NoDup, So. }
  split.
  - clear HL. induction L as [|si L IH]; cbn; [constructor|]. cbn in NL. apply NoDup_cons_iff in NL as [N1 N2]. rewrite map_app. apply NoDup_app_intro; [|apply IH, N2|].
    + clear - NG. induction (stash_geneses (sk_stash s)) as [|g l IH]; cbn in *; [constructor|]. apply NoDup_cons_iff in NG as [N1 N2].
      destruct (_ =? g_schema g); cbn; [|apply IH, N2]. constructor; [|apply IH, N2]. intros Hin. apply N1. apply in_map_iff in Hin as (y & Ey & Hy). apply filter_In in Hy as [Hy _]. apply in_map_iff. exists y. auto.
    + intros x Hx Hy. apply in_map_iff in Hx as (g & Eg & Hg). apply in_map_iff in Hy as (g' & Eg' & Hg'). apply filter_In in Hg as [Hg Sg]. apply in_flat_map in Hg' as (si' & Hsi' & Hg').
      apply filter_In in Hg' as [Hg' Sg']. apply N.eqb_eq in Sg, Sg'. apply N1. apply in_map_iff. exists si'. split; [|exact Hsi'].
      assert (g = g'); [|subst; congruence].
      clear - NG Eg Eg' Hg Hg'. induction (stash_geneses (sk_stash s)) as [|y l IH]; [destruct Hg|]. cbn in NG. apply NoDup_cons_iff in NG as [N1 N2].
      destruct Hg as [->|Hg], Hg' as [->|Hg']; [reflexivity| | |apply IH; assumption].
      * exfalso. apply N1. apply in_map_iff. exists g'. split; [congruence|exact Hg'].
      * exfalso. apply N1. apply in_map_iff. exists g. split; [congruence|exact Hg].
  - intros g. rewrite in_flat_map. unfold stash_geneses. split.
    + intros (si & Hsi & Hg). apply filter_In in Hg as [Hg Sg]. apply N.eqb_eq in Sg. apply (in_vals _ _ (so_geneses _ So)) in Hg as (cid & Hc). apply HL in Hsi as (id & im & Es & Ei).
      exists cid, si, im. split; [apply by_genesis, Hc|]. split; [|exact Ei]. unfold g_schema in Sg. rewrite <- Sg. apply by_schema in Es as Es'. rewrite (fi_schema _ _ F _ _ Es'). exact Es.
    + intros (cid & si & im & Eg & Es & Ei). exists si. split; [apply HL; exists (op_ty g), im; auto|]. apply filter_In. split; [apply (in_vals _ _ (so_geneses _ So)); exists cid; apply by_genesis, Eg|].
      apply N.eqb_eq. unfold g_schema. apply by_schema in Es. exact (fi_schema _ _ F _ _ Es).
Qed.
Lemma geneses_by_total ids : ids <> [] -> exists gs, geneses_by (sk_stash s) ids = Ok gs.
Proof. intros N. unfold geneses_by. rewrite schemata_by_ok by exact N. eexists. reflexivity. Qed.

Lemma by_class ids : ids <> [] ->
  (forall cid st g, contract_state (sk_state s) cid = Ok st -> stash_genesis (sk_stash s) cid = Ok g -> cs_schema (mc_state st) = op_ty g) ->
  exists l, contracts_by H h s ids = Ok l /\ NoDup (map (fun ct => ci_id (ct_info ct)) l) /\
    forall ct, In ct l <-> exists cid, contract_iface_class H h s ids cid = Ok ct.
Proof.
  intros N Fit. unfold contracts_by. destruct (geneses_by_total ids N) as [gs Eg]. rewrite Eg. cbn [rbind]. destruct (geneses_by_ok ids gs N Eg) as [ND IN].
  rewrite (collect_ok (fun g => contract_iface_class H h s ids (contract_id H g)) gs) by (intros g _; apply class_panic, N). cbn [app].
  eexists. split; [reflexivity|].
  assert (I : forall cid ct, contract_iface_class H h s ids cid = Ok ct -> ci_id (ct_info ct) = cid).
  { intros cid ct E. apply class_open in E as (si & i & libs & O & _). apply open_opened in O as [O _]. apply raw_ok in O as (_ & _ & O). exact (info_id _ _ O). }
  split.
  - clear Eg IN. induction gs as [|g gs IH]; cbn [filter_map map] in *; [constructor|]. apply NoDup_cons_iff in ND as [N1 N2].
    destruct (contract_iface_class H h s ids (contract_id H g)) as [ct|e|] eqn:E; [|apply IH, N2 ..]. cbn [map]. constructor; [|apply IH, N2].
    intros Hin. apply in_map_iff in Hin as (ct' & Ec & Hc). apply filter_map_In in Hc as (g' & Hg' & E'). destruct (contract_iface_class H h s ids (contract_id H g')) as [x|e|] eqn:E2; try discriminate E'.
    apply Some_inj in E' as ->. apply I in E, E2. apply N1. apply in_map_iff. exists g'. split; [congruence|exact Hg'].
  - intros ct. rewrite filter_map_In. split.
    + intros (g & Hg & E). exists (contract_id H g). destruct (contract_iface_class H h s ids (contract_id H g)); try discriminate E. apply Some_inj in E as ->. reflexivity.
    + intros (cid & E). pose proof E as E'. apply class_open in E' as (si & i & libs & O & C & _). pose proof O as O'. destruct O' as [O1 O2 _ (g & Hg & _)].
      pose proof Hg as Hg'. apply by_genesis in Hg'. apply (fi_genesis _ _ F) in Hg'. exists g. split.
      * apply IN. exists cid, si, (ct_impl ct). split; [exact Hg|]. rewrite <- (Fit _ _ _ O1 Hg). split; [exact O2|]. apply (impl_for_ok H _ F So _ _ _ _ O2), C.
      * rewrite Hg', E. reflexivity.
Qed.
End Open.

(** ** Builders *)

Lemma sorted_prefix {V} (l r : omap N V) : msorted (l ++ r) -> msorted l.
Proof.
  induction l as [|p l IH]; intros S; [constructor|]. cbn in S. pose proof (msorted_inv _ _ S) as [S1 S2].
  constructor; [apply IH, S1|]. apply Forall_app in S2. apply S2.
Qed.
Lemma tags_added X cid ty tags : msorted tags -> len tags <= U8MAX ->
  exists b, genesis_tags X (tb_new cid ty) tags = Ok b /\ tb_contract b = cid /\ tb_type b = ty /\ tb_nonce b = U64MAX /\ tb_inputs b = [] /\ only_tags (tb_builder b) tags.
Proof.
  intros S L. unfold genesis_tags.
  enough (X0 : forall todo done b, done ++ todo = tags -> tb_contract b = cid -> tb_type b = ty -> tb_nonce b = U64MAX -> tb_inputs b = [] -> only_tags (tb_builder b) done ->
    exists b', rfold (fun b p => match t_call X b (TAssetTagRaw (fst p) (snd p)) with Ok b' => Ok b' | _ => Panic end) b todo = (Ok b' : result QueryError TrBuilder) /\
      tb_contract b' = cid /\ tb_type b' = ty /\ tb_nonce b' = U64MAX /\ tb_inputs b' = [] /\ only_tags (tb_builder b') tags).
  { apply (X0 tags []); try reflexivity. repeat split; reflexivity. }
  intros todo. induction todo as [|[k v] todo IH]; intros done b E E1 E2 E3 E4 O; cbn [rfold].
  - rewrite app_nil_r in E. subst done. exists b. auto 8.
  - cbn [t_call fst snd]. unfold add_asset_tag_raw. destruct O as (O1 & O2 & O3 & O4 & O5 & O6 & O7). rewrite O5. cbn [mhas mget]. unfold cinsert. rewrite O1.
    assert (Ll : len done <? U8MAX = true).
    { apply N.ltb_lt. assert (len tags = len done + len todo + 1) by (rewrite <- E; unfold len; rewrite app_length; cbn [List.length]; lia). lia. }
    rewrite Ll. cbn [ok_or rbind rmap]. apply (IH (done ++ [(k, v)])).
    + rewrite <- app_assoc. exact E.
    + exact E1.
    + exact E2.
    + exact E3.
    + exact E4.
    + assert (Mi : minsert k v done = done ++ [(k, v)]).
      { apply msorted_ext.
        - apply minsert_sorted. rewrite <- E in S. exact (sorted_prefix _ _ S).
        - rewrite <- E in S. apply (sorted_prefix _ todo). rewrite <- app_assoc. exact S.
        - intros k1. rewrite mget_insert. rewrite <- E in S. clear - S. induction done as [|p d IH]; cbn [app mget]; [reflexivity|]. destruct p as [k0 v0]. cbn in S. pose proof (msorted_inv _ _ S) as [S1 S2].
          specialize (IH S1). destruct (keqb_spec k1 k) as [Ek|Nk].
          + subst k1. destruct (keqb_spec k k0) as [Ek|N0]; [|exact IH].
            exfalso. rewrite Forall_forall in S2. specialize (S2 (k, v)). unfold key_lt in S2. cbn [fst] in S2. specialize (S2 ltac:(apply in_or_app; right; left; reflexivity)). apply N_lt in S2. rewrite Ek in S2. exact (N.lt_irrefl _ S2).
          + destruct (keqb_spec k1 k0); [reflexivity|]. exact IH. }
      unfold only_tags. cbn [tb_set tb_builder ob_set_tags ob_tags ob_global ob_meta ob_rights ob_fungible ob_data ob_attach]. rewrite Mi. auto 8.
Qed.
