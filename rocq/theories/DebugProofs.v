(** * Proofs for C79 *)
From Verif Require Import Base StM Core MergeModel MergeProofs ContainerModel PIndexModel StateModel StateSpec StashModel StockModel StockAgain DebugModel.
Local Open Scope N_scope.

(** ** Merging *)

Lemma commitments_eq H a b : conceal H a = conceal H b -> keqb (commitments H a) (commitments H b) = true.
Proof. intros E. unfold commitments. rewrite E. apply keqb_refl. Qed.

Lemma merge_list_dbg H l l' acc : map (conceal H) l = map (conceal H) l' ->
  rfold (fun acc p => let! x := merge_assign_dbg H (fst p) (snd p) in Ok (acc ++ [x])) acc (combine l l') =
  Ok (acc ++ map (fun p => merge_assign (fst p) (snd p)) (combine l l')).
Proof.
  revert l' acc. induction l as [|a l IH]; intros [|b l'] acc E; try discriminate; cbn [combine rfold map].
  - rewrite app_nil_r. reflexivity.
  - cbn [map] in E. injection E as E1 E2. unfold merge_assign_dbg at 1. cbn [fst snd]. rewrite (commitments_eq H a b E1). cbn [rbind].
    rewrite (IH l' _ E2), <- app_assoc. reflexivity.
Qed.

Lemma merge_typed_dbg_eq H a b : conceal_typed H a = conceal_typed H b -> merge_typed_dbg H a b = merge_typed a b.
Proof.
  intros E. unfold merge_typed_dbg, merge_typed. unfold conceal_typed in E. injection E as E1 E2. rewrite E1, kind_eqb_refl.
  rewrite (merge_list_dbg H _ _ [] E2). reflexivity.
Qed.

Lemma merge_assigns_dbg_eq H a b : aligned H a b -> merge_assigns_dbg H a b = merge_assigns a b.
Proof.
  unfold merge_assigns_dbg, merge_assigns. generalize (@nil (N * TypedAssigns)) as acc. intros acc F. revert acc.
  induction F as [|[k t] [k' t'] a b [E1 E2] F IH]; intros acc; [reflexivity|]. cbn [fst snd combine rfold] in *. subst k'. rewrite N.eqb_refl, (merge_typed_dbg_eq H t t' E2).
  destruct (merge_typed t t') as [x|e|]; cbn [rbind]; [apply IH|reflexivity|reflexivity].
Qed.

Lemma merge_op_dbg_eq H a b : collision_free H -> merge_op_dbg H a b = merge_op H a b.
Proof.
  intros (_ & _ & Hb & _). unfold merge_op_dbg, merge_op. destruct (op_id H a =? op_id H b) eqn:E; [|reflexivity]. apply N.eqb_eq in E.
  destruct (op_id_same H a b (Hb _ _) E) as [_ F]. rewrite (merge_assigns_dbg_eq H _ _ F). reflexivity.
Qed.

Lemma rfold_ext {E A B} (f g : A -> B -> result E A) l : (forall a b, f a b = g a b) -> forall a, rfold f a l = rfold g a l.
Proof. intros Hfg. induction l as [|b l IH]; intros a; [reflexivity|]. cbn [rfold]. rewrite Hfg. destruct (g a b); cbn [rbind]; auto. Qed.

Lemma merge_bundle_dbg_eq H a b : collision_free H -> bundle_id H a = bundle_id H b -> merge_bundle_dbg H a b = merge_bundle H a b.
Proof.
  intros Hc E. unfold merge_bundle_dbg, merge_bundle. rewrite E, N.eqb_refl.
  erewrite rfold_ext; [reflexivity|]. intros known p. cbv beta. destruct (mget (fst p) known) as [t|]; [|reflexivity]. rewrite merge_op_dbg_eq by exact Hc. reflexivity.
Qed.

Lemma merge_bundle_id H a b r : merge_bundle H a b = Ok r -> bundle_id H r = bundle_id H a.
Proof.
  unfold merge_bundle. destruct (rfold _ _ _) as [known|e|]; cbn [rbind]; try discriminate. destruct (_ <? _); [discriminate|]. intros [= <-]. reflexivity.
Qed.

(** ** Two computations which do the same where an invariant holds, and keep it *)
Section Same.
Context {S E : Type} (I : S -> Prop).
Definition alike {A} (m m' : M S E A) : Prop := forall s, I s -> m' s = m s /\ I (fst (m s)).

Lemma alike_bind {A B} (m m' : M S E A) (k k' : A -> M S E B) : alike m m' -> (forall a, alike (k a) (k' a)) -> alike (bind m k) (bind m' k').
Proof.
  intros Hm Hk s Hs. destruct (Hm s Hs) as [Em Im]. unfold bind. rewrite Em. destruct (m s) as [s' [a|e|]]; cbn [fst] in *; auto. apply Hk, Im.
Qed.
Lemma alike_ret {A} (a : A) : alike (ret a) (ret a).
Proof. intros s Hs. split; [reflexivity|exact Hs]. Qed.
Lemma alike_fail {A} (e : E) : alike (@fail S E A e) (fail e).
Proof. intros s Hs. split; [reflexivity|exact Hs]. Qed.
Lemma alike_lift {A} (r : result E A) : alike (lift r) (lift r).
Proof. intros s Hs. split; [reflexivity|exact Hs]. Qed.
Lemma alike_keep {A} (m : M S E A) : (forall s, I s -> I (fst (m s))) -> alike m m.
Proof. intros Hm s Hs. split; [reflexivity|apply Hm, Hs]. Qed.
Lemma alike_for {A} (f f' : A -> M S E unit) l : (forall a, In a l -> alike (f a) (f' a)) -> alike (mfor f l) (mfor f' l).
Proof.
  induction l as [|a l IH]; intros Hf; [apply alike_ret|]. cbn [mfor]. apply alike_bind; [apply Hf; left; reflexivity|intros _]. apply IH. intros b Hb. apply Hf. right. exact Hb.
Qed.
(** A state which was just read *)
Lemma alike_get {A} (k k' : S -> M S E A) : (forall s, I s -> k' s s = k s s /\ I (fst (k s s))) -> alike (bind get k) (bind get k').
Proof. intros Hk s Hs. unfold bind, get. exact (Hk s Hs). Qed.
End Same.

(** ** The stash *)
Section Stash.
Context (H : Hashes) (K : Merkle) (Hc : collision_free H).

Definition filed (s : MemStash) : Prop := forall k b, mget k (st_bundles s) = Some b -> bundle_id H b = k.

(** Only [replace_bundle] changes the bundles. *)
Definition leaves {A} (m : STM A) : Prop := forall s, st_bundles (fst (m s)) = st_bundles s.
Lemma leaves_keep {A} (m : STM A) : leaves m -> alike filed m m.
Proof. intros Hm. apply alike_keep. intros s Hs k b. rewrite Hm. apply Hs. Qed.
Lemma leaves_bind {A B} (m : STM A) (k : A -> STM B) : leaves m -> (forall a, leaves (k a)) -> leaves (bind m k).
Proof.
  intros Hm Hk s. unfold bind. specialize (Hm s). destruct (m s) as [s' [a|e|]]; cbn [fst] in *; auto. rewrite Hk. exact Hm.
Qed.
Lemma leaves_ret {A} (a : A) : leaves (ret a). Proof. intros s. reflexivity. Qed.
Lemma leaves_get : leaves get. Proof. intros s. reflexivity. Qed.
Lemma leaves_lift {A} (r : result StashError A) : leaves (lift r). Proof. intros s. reflexivity. Qed.
Lemma leaves_for {A} (f : A -> STM unit) l : (forall a, leaves (f a)) -> leaves (mfor f l).
Proof. intros Hf. induction l as [|a l IH]; [apply leaves_ret|]. cbn [mfor]. apply leaves_bind; [apply Hf|intros _; exact IH]. Qed.

Lemma alike_consume_bundle b : alike filed (consume_bundle H b) (consume_bundle_dbg H b).
Proof.
  intros s Hs. unfold consume_bundle_dbg, consume_bundle, bind, get.
  assert (Hr : forall b', bundle_id H b' = bundle_id H b -> filed (fst (replace_bundle H b' s))).
  { intros b' E. unfold replace_bundle, bind, get, grown, lift. destruct (cinsert U32MAX (bundle_id H b') b' (st_bundles s)) as [m|] eqn:Ei; cbn [ok_or put fst ret]; [|exact Hs].
    unfold cinsert in Ei. destruct (_ <? _); [|discriminate]. injection Ei as <-. intros k x. cbn [with_bundles st_bundles]. rewrite mget_insert.
    destruct (keqb_spec k (bundle_id H b')) as [->|_]; [intros [= <-]; reflexivity|apply Hs]. }
  destruct (mget (bundle_id H b) (st_bundles s)) as [old|] eqn:E.
  - pose proof (Hs _ _ E) as Eo. rewrite (merge_bundle_dbg_eq H old b Hc Eo). unfold lift. destruct (merge_bundle H old b) as [b'|e|] eqn:Em; cbn [rmap_err fst]; auto.
    split; [reflexivity|]. apply Hr. rewrite (merge_bundle_id _ _ _ _ Em). exact Eo.
  - cbn [ret]. split; [reflexivity|]. apply Hr. reflexivity.
Qed.

Ltac leaf := repeat first [apply leaves_bind; [|intros ?] | apply leaves_ret | apply leaves_get | apply leaves_lift | apply leaves_for; intros ?
  | match goal with |- leaves (put _) => fail 2 | |- leaves (match ?x with _ => _ end) => destruct x eqn:? | |- leaves (if ?x then _ else _) => destruct x eqn:? end ].

(** A stash read, and something of it replaced *)
Lemma leaves_get_put {A} (k : MemStash -> STM A) : (forall s, st_bundles (fst (k s s)) = st_bundles s) -> leaves (bind get k).
Proof. intros Hk s. unfold bind, get. apply Hk. Qed.

Lemma leaves_consume_kit k : leaves (consume_kit k).
Proof.
  unfold consume_kit. repeat (apply leaves_bind; [|intros _]).
  - unfold consume_types. apply leaves_for. intros p. apply leaves_get_put. intros s. unfold bind, grown, lift. destruct (cinsert _ _ _ _); reflexivity.
  - apply leaves_for. intros p. apply leaves_bind; [|intros; apply leaves_ret]. apply leaves_get_put. intros s. unfold bind, grown, lift. destruct (cinsert _ _ _ _); reflexivity.
  - apply leaves_for. intros p. apply leaves_bind; [|intros; apply leaves_ret]. apply leaves_get_put. intros s. destruct (mhas _ _); [reflexivity|]. unfold bind, grown, lift. destruct (cinsert _ _ _ _); reflexivity.
  - apply leaves_for. intros p. apply leaves_bind; [|intros; apply leaves_ret]. apply leaves_get_put. intros s. destruct (mhas _ _); [reflexivity|]. unfold bind, grown, lift. destruct (cinsert _ _ _ _); reflexivity.
  - apply leaves_for. intros p. apply leaves_bind; [|intros; apply leaves_ret]. apply leaves_get_put. intros s. destruct (mget _ _); [|reflexivity]. destruct (mget _ _); [|reflexivity]. unfold bind, grown, lift. destruct (cinsert _ _ _ _); reflexivity.
  - apply leaves_for. intros p. apply leaves_get_put. intros s. destruct (mget _ _); unfold bind, grown, lift; [destruct (cpush _ _ _)|destruct (cinsert _ _ _ _)]; reflexivity.
  - apply leaves_for. intros p s. unfold attempt.
    assert (L : leaves (import_sigs (fst p) (snd p))).
    { apply leaves_get_put. intros t. destruct (mget _ _).
      - destruct (add_sigs _ _ _) as [[ids acc] []]; reflexivity.
      - destruct (add_sigs _ _ _) as [[ids acc] []]; unfold bind, put; cbn [negb]; [|reflexivity]. destruct (len acc =? 0); [reflexivity|]. destruct (cinsert _ _ _ _); reflexivity. }
    specialize (L s). destruct (import_sigs (fst p) (snd p) s) as [s' [?|?|]]; exact L.
Qed.

Lemma leaves_consume_witness w : leaves (consume_witness w).
Proof.
  unfold consume_witness. apply leaves_bind; [apply leaves_get|intros s]. apply leaves_bind.
  - destruct (mget _ _); [|apply leaves_ret]. repeat (apply leaves_bind; [apply leaves_lift|intros ?]). apply leaves_ret.
  - intros w'. apply leaves_get_put. intros t. unfold bind, grown, lift. destruct (cinsert _ _ _ _); reflexivity.
Qed.

Lemma leaves_attachment id data : leaves (replace_attachment id data).
Proof. apply leaves_get_put. intros t. unfold bind, grown, lift. destruct (cinsert _ _ _ _); reflexivity. Qed.

Lemma alike_genesis g : alike filed (consume_genesis H g) (consume_genesis_dbg H g).
Proof.
  apply alike_get. intros s Hs.
  replace (match mget (contract_id H g) (st_geneses s) with Some old => lift (rmap_err StashMerge (merge_op_dbg H old g)) | None => ret g end)
    with (match mget (contract_id H g) (st_geneses s) with Some old => lift (rmap_err StashMerge (merge_op H old g)) | None => @ret MemStash StashError _ g end)
    by (destruct (mget _ _); [rewrite merge_op_dbg_eq by exact Hc|]; reflexivity).
  match goal with |- ?m s = _ /\ _ => refine (leaves_keep m _ s Hs) end. apply leaves_bind.
  - destruct (mget _ _); [apply leaves_lift|apply leaves_ret].
  - intros g'. apply leaves_bind; [|intros; apply leaves_ret]. apply leaves_get_put. intros t. unfold bind, grown, lift. destruct (cinsert _ _ _ _); reflexivity.
Qed.

Lemma alike_extension e : alike filed (consume_extension H e) (consume_extension_dbg H e).
Proof.
  apply alike_get. intros s Hs.
  replace (match mget (op_id H e) (st_extensions s) with Some old => lift (rmap_err StashMerge (merge_op_dbg H old e)) | None => ret e end)
    with (match mget (op_id H e) (st_extensions s) with Some old => lift (rmap_err StashMerge (merge_op H old e)) | None => @ret MemStash StashError _ e end)
    by (destruct (mget _ _); [rewrite merge_op_dbg_eq by exact Hc|]; reflexivity).
  match goal with |- ?m s = _ /\ _ => refine (leaves_keep m _ s Hs) end. apply leaves_bind.
  - destruct (mget _ _); [apply leaves_lift|apply leaves_ret].
  - intros g'. apply leaves_bind; [|intros; apply leaves_ret]. apply leaves_get_put. intros t. unfold bind, grown, lift. destruct (cinsert _ _ _ _); reflexivity.
Qed.

Lemma alike_anchor_all cid l : alike filed (anchor_all H K cid l) (anchor_all_dbg H K cid l).
Proof.
  induction l as [|p l IH]; [apply alike_ret|]. cbn [anchor_all anchor_all_dbg]. apply alike_bind.
  - unfold anchor_bundle, anchor_bundle_dbg. cbv zeta. apply alike_bind; [apply alike_consume_bundle|intros _]. apply alike_bind; [apply alike_lift|intros; apply alike_ret].
  - intros a. apply alike_bind; [exact IH|intros; apply alike_ret].
Qed.

Lemma alike_consignment c : alike filed (consume_consignment H K c) (consume_consignment_dbg H K c).
Proof.
  unfold consume_consignment, consume_consignment_dbg. cbv zeta. apply alike_bind; [apply alike_genesis|intros _].
  apply alike_bind; [apply alike_for; intros; apply alike_extension|intros _]. apply alike_bind; [|intros _].
  - apply alike_for. intros w _. unfold consume_witness_bundle, consume_witness_bundle_dbg. apply alike_bind; [apply alike_anchor_all|intros l].
    apply leaves_keep. apply leaves_bind; [|intros a; apply leaves_bind; [apply leaves_consume_witness|intros; apply leaves_ret]].
    unfold anchors_of. destruct (rev l) as [|[[] ?] [|[[] ?] ?]]; intros s; reflexivity.
  - apply alike_bind; [|intros _; apply leaves_keep, leaves_consume_kit]. apply leaves_keep, leaves_for. intros p. apply leaves_bind; [apply leaves_attachment|intros; apply leaves_ret].
Qed.
End Stash.

(** ** The state *)
Section State.
Context {OG : OrdKey GlobalOut} (H : Hashes) (Hc : collision_free H).

Lemma rstate_key_inj a b : rstate_key a = rstate_key b -> a = b.
Proof. destruct a, b; cbn; congruence. Qed.
Lemma rstate_eqb_refl a : rstate_eqb a a = true.
Proof. apply keqb_refl. Qed.

(** What is stored for an output opens the commitment of some operation with the id. *)
Definition backed (o : Opout) (st : RState) : Prop :=
  exists op ta b, op_id H op = oo_op o /\ mget (oo_ty o) (op_assigns op) = Some ta /\ nth_error (ta_list ta) (N.to_nat (oo_no o)) = Some b /\ revealed_state b = Some st.
Lemma backed_unique o st st' : backed o st -> backed o st' -> st = st'.
Proof.
  intros (op & ta & b & Ei & Et & En & Es) (op' & ta' & b' & Ei' & Et' & En' & Es'). destruct Hc as (_ & Hst & Hop & _).
  destruct (op_id_same H op op' (Hop _ _)) as [_ F]; [congruence|].
  assert (Ec : conceal_typed H ta = conceal_typed H ta').
  { apply aligned_conceal in F. assert (Ea : mget (oo_ty o) (conceal_assigns H (op_assigns op)) = mget (oo_ty o) (conceal_assigns H (op_assigns op'))) by (rewrite F; reflexivity).
    unfold conceal_assigns in Ea. rewrite !mget_mmap, Et, Et' in Ea. cbn [option_map] in Ea. congruence. }
  unfold conceal_typed in Ec. injection Ec as _ Ec. apply (f_equal (fun l => nth_error l (N.to_nat (oo_no o)))) in Ec.
  rewrite (map_nth_error _ _ _ En), (map_nth_error _ _ _ En') in Ec. injection Ec as Ec. apply Hst.
  destruct b, b'; cbn in Es, Es', Ec; congruence.
Qed.

Definition backs (outs : Outputs) : Prop := forall (key : OutKey) st w, mget key outs = Some (st, w) -> backed (fst key) st.
Definition cs_backed (cs : ContractState) : Prop := forall k, backs (cs_outs k cs).
Definition s_backed (s : MemState) : Prop := forall cid cs, mget cid (ms_contracts s) = Some cs -> cs_backed cs.

(** A result, the same in both, which has the invariant if there is one *)
Definition rsame {A} (I : A -> Prop) (r r' : result StateError A) : Prop := r' = r /\ forall a, r = Ok a -> I a.

Lemma rsame_fold {A B} (I : A -> Prop) (f f' : A -> B -> result StateError A) l : (forall a b, In b l -> I a -> rsame I (f a b) (f' a b)) ->
  forall a, I a -> rsame I (rfold f a l) (rfold f' a l).
Proof.
  induction l as [|b l IH]; intros Hf a Ha; cbn [rfold].
  - split; [reflexivity|]. intros x [= <-]. exact Ha.
  - destruct (Hf a b (or_introl eq_refl) Ha) as [E Hi]. rewrite E. destruct (f a b) as [x|e|]; cbn [rbind].
    + apply IH; [intros; apply Hf; [right; assumption|assumption]|]. apply Hi. reflexivity.
    + split; [reflexivity|discriminate].
    + split; [reflexivity|discriminate].
Qed.

Lemma push_same (key : OutKey) st w outs : backs outs -> backed (fst key) st -> push_out_dbg key st w outs = push_out key st w outs /\
  forall outs', push_out key st w outs = Some outs' -> backs outs'.
Proof.
  intros Hb Ho. unfold push_out_dbg, push_out. destruct (len outs <? U32MAX); [|split; [reflexivity|discriminate]]. unfold mhas.
  destruct (mget key outs) as [[st' w']|] eqn:E.
  - pose proof (backed_unique (fst key) st' st (Hb _ _ _ E) Ho) as Eu. subst st'. cbn [fst]. rewrite rstate_eqb_refl. split; [reflexivity|]. intros ? [= <-]. exact Hb.
  - split; [reflexivity|]. intros ? [= <-]. intros key' st' w' E'. rewrite mget_insert in E'.
    destruct (keqb_spec key' key) as [->|_]; [|exact (Hb _ _ _ E')]. injection E' as <- _. exact Ho.
Qed.

Lemma process_same op ty ta w outs : mget ty (op_assigns op) = Some ta -> backs outs ->
  rsame backs (process outs (ta_list ta) (op_id H op) ty w) (process_dbg outs (ta_list ta) (op_id H op) ty w).
Proof.
  intros Et Hb. unfold process, process_dbg. apply rsame_fold; [|exact Hb]. intros outs' [no a] Hi Hb'. apply enumerate_In in Hi. cbn [fst snd].
  destruct (to_revealed a) as [[seal st]|] eqn:Er; [|split; [reflexivity|intros ? [= <-]; exact Hb']].
  destruct (assign_output w seal) as [out|]; cbn [expect rbind]; [|split; [reflexivity|discriminate]].
  assert (Ho : backed (opout (op_id H op) ty no) st).
  { exists op, ta, a. cbn [opout oo_op oo_ty oo_no]. rewrite Nnat.Nat2N.id. repeat split; auto. destruct a; cbn in Er |- *; try discriminate. congruence. }
  destruct (push_same (opout (op_id H op) ty no, out) st w outs' Hb' Ho) as [E Hp]. rewrite E. split; [reflexivity|].
  intros x Ex. destruct (push_out _ st w outs') as [y|]; [|discriminate]. cbn [expect] in Ex. injection Ex as <-. apply Hp. reflexivity.
Qed.

Lemma add_same op ow cs : msorted (op_assigns op) -> cs_backed cs ->
  rsame cs_backed (add_operation H cs ow op) (add_operation_dbg H cs ow op).
Proof.
  intros Hs Hb. unfold add_operation, add_operation_dbg. cbv zeta.
  assert (Hg : forall cs', add_globals cs (op_id H op) ow op = Ok cs' -> cs_backed cs').
  { assert (G : rsame cs_backed (add_globals cs (op_id H op) ow op) (add_globals cs (op_id H op) ow op)); [|exact (proj2 G)].
    unfold add_globals. apply rsame_fold; [|exact Hb]. intros c [ty l] _ Hc'. cbn [fst snd]. split; [reflexivity|]. intros a.
    destruct (mget ty (cs_global c)) as [g|]; cbn [expect rbind]; [|discriminate]. destruct (rfold _ _ _) as [known|e|]; cbn [rbind]; try discriminate.
    intros [= <-]. intros []; [exact (Hc' KDeclarative)|exact (Hc' KFungible)|exact (Hc' KStructured)|exact (Hc' KAttachment)]. }
  destruct (add_globals cs (op_id H op) ow op) as [cs'|e|]; cbn [rbind]; [|split; [reflexivity|discriminate]..].
  unfold add_assignments, add_assignments_dbg. apply rsame_fold; [|apply Hg; reflexivity]. intros c [ty ta] Hi Hc'. cbn [fst snd].
  assert (Et : mget ty (op_assigns op) = Some ta) by (apply In_mget; assumption).
  destruct (process_same op ty ta (op_witness ow) (cs_outs (ta_kind ta) c) Et (Hc' _)) as [E Hp]. rewrite E.
  destruct (process _ _ _ _ _) as [outs|e|]; cbn [rbind]; [|split; [reflexivity|discriminate]..]. split; [reflexivity|]. intros a [= <-].
  specialize (Hp outs eq_refl). intros k. destruct k, (ta_kind ta); cbn [cs_outs cs_set_outs cs_rights cs_fungibles cs_data cs_attach];
    first [exact Hp|exact (Hc' KDeclarative)|exact (Hc' KFungible)|exact (Hc' KStructured)|exact (Hc' KAttachment)].
Qed.

Lemma alike_on_contract cid op ow : msorted (op_assigns op) ->
  alike s_backed (on_contract cid (fun cs => add_operation H cs ow op)) (on_contract cid (fun cs => add_operation_dbg H cs ow op)).
Proof.
  intros Hs s Hb. unfold on_contract. destruct (mget cid (ms_contracts s)) as [cs|] eqn:E; [|split; [reflexivity|exact Hb]].
  destruct (add_same op ow cs Hs (Hb _ _ E)) as [Ea Hi]. rewrite Ea. destruct (add_operation H cs ow op) as [cs'|e|]; (split; [reflexivity|]); [|exact Hb|exact Hb].
  cbn [fst]. intros id x. cbn [set_states ms_contracts]. rewrite mget_insert. destruct (keqb_spec id cid) as [->|_]; [|apply Hb]. intros [= <-]. apply Hi. reflexivity.
Qed.

Lemma alike_set_witness w ord : alike s_backed (set_witness w ord) (set_witness w ord).
Proof. apply alike_keep. intros s Hs. unfold set_witness. destruct (cinsert _ _ _ _); exact Hs. Qed.

Lemma alike_transition cid t w ord : op_sorted t -> alike s_backed (add_transition H cid t w ord) (add_transition_dbg H cid t w ord).
Proof. intros [Hs _]. apply alike_bind; [apply alike_set_witness|intros _; apply alike_on_contract, Hs]. Qed.
Lemma alike_add_extension cid t w ord : op_sorted t -> alike s_backed (add_extension H cid t w ord) (add_extension_dbg H cid t w ord).
Proof. intros [Hs _]. apply alike_bind; [apply alike_set_witness|intros _; apply alike_on_contract, Hs]. Qed.

Lemma alike_register sc g : op_sorted g -> alike s_backed (st_register H sc g) (st_register_dbg H sc g).
Proof.
  intros [Hs _]. unfold st_register, st_register_dbg. cbv zeta. apply alike_get. intros s Hb.
  refine (alike_bind _ _ _ _ _ _ _ s Hb); [|intros _; apply alike_on_contract, Hs]. apply alike_keep. intros t Ht.
  destruct (mhas _ _); [exact Ht|]. destruct (cinsert _ _ _ _) as [m|] eqn:Em; [|exact Ht]. cbn [put fst]. intros id cs. cbn [set_states ms_contracts].
  unfold cinsert in Em. destruct (_ <? _); [|discriminate]. injection Em as <-. rewrite mget_insert.
  destruct (keqb id _); [|apply Hb]. intros [= <-] []; intros key st w; discriminate.
Qed.

Lemma alike_resolve r w : alike s_backed (resolve r w) (resolve r w).
Proof. apply alike_lift. Qed.

Lemma alike_from_bundle cid b w r : (forall o, In o (mvals (b_known b)) -> op_sorted o) ->
  alike s_backed (update_from_bundle H cid b w r) (update_from_bundle_dbg H cid b w r).
Proof.
  intros Hs. apply alike_get. intros s Hb. refine (alike_bind _ _ _ _ _ _ _ s Hb).
  - destruct (mhas _ _); [apply alike_ret|apply alike_fail].
  - intros _. apply alike_for. intros t Ht. apply alike_bind; [apply alike_resolve|intros ord; apply alike_transition, Hs, Ht].
Qed.

Lemma alike_from_consignment c r : stock_call_ok H (SkAccept c r) ->
  alike s_backed (update_from_consignment H c r) (update_from_consignment_dbg H c r).
Proof.
  intros (_ & Sg & Se & Sb). unfold update_from_consignment, update_from_consignment_dbg. cbv zeta.
  apply alike_bind; [apply alike_register, Sg|intros _]. apply alike_bind; [|intros _].
  - apply alike_for. intros wb Hw. apply alike_for. intros t Ht. apply alike_bind; [apply alike_resolve|intros ord; apply alike_transition; exact (Sb wb t Hw Ht)].
  - apply alike_for. intros e He. destruct (extension_witness _ _); [|apply alike_ret]. apply alike_bind; [apply alike_resolve|intros ord; apply alike_add_extension, Se, He].
Qed.

Lemma alike_update r after : alike s_backed (update_witnesses r after) (update_witnesses r after).
Proof. apply alike_keep. intros s Hs. exact Hs. Qed.

(** ** The stock *)
Definition sk_good (s : Stock) : Prop := filed H (sk_stash s) /\ s_backed (sk_state s).

Lemma alike_on_stash {A} (m m' : M MemStash StashError A) : alike (filed H) m m' -> alike sk_good (on_stash m) (on_stash m').
Proof. intros Hm s [Hs Hb]. destruct (Hm (sk_stash s) Hs) as [E Hi]. unfold on_stash. rewrite E. destruct (m (sk_stash s)) as [x r]. split; [reflexivity|]. split; [exact Hi|exact Hb]. Qed.
Lemma alike_on_state {A} (m m' : M MemState StateError A) : alike s_backed m m' -> alike sk_good (on_state m) (on_state m').
Proof. intros Hm s [Hs Hb]. destruct (Hm (sk_state s) Hb) as [E Hi]. unfold on_state. rewrite E. destruct (m (sk_state s)) as [x r]. split; [reflexivity|]. split; [exact Hs|exact Hi]. Qed.
Lemma alike_on_index {A} (m : M MemIndex IndexError A) : alike sk_good (on_index m) (on_index m).
Proof. apply alike_keep. intros s [Hs Hb]. unfold on_index. destruct (m (sk_index s)) as [x r]. split; assumption. Qed.

Lemma alike_body (K : Merkle) c : stock_call_ok H c -> alike sk_good (stock_body H K c) (stock_body_dbg H K c).
Proof.
  intros Hk. destruct c as [c r|f r|k|x|r after|]; cbn [stock_body stock_body_dbg].
  - apply alike_get. intros s Hs. destruct (resolve_secrets H (sk_stash s) c) as [c'|e|] eqn:Er; [|split; [reflexivity|exact Hs]..].
    cbn [rmap_err]. unfold bind at 1 3 5. cbn [lift]. pose proof (resolve_ok H _ c c' r Hk Er) as Hk'. revert s Hs Er.
    enough (Ha : alike sk_good (on_state (update_from_consignment H c' r) ;;! on_index (pindex_consignment H c') ;;! on_stash (consume_consignment H K c'))
      (on_state (update_from_consignment_dbg H c' r) ;;! on_index (pindex_consignment H c') ;;! on_stash (consume_consignment_dbg H K c'))) by (intros s Hs _; exact (Ha s Hs)).
    apply alike_bind; [apply alike_on_state, alike_from_consignment, Hk'|intros _]. apply alike_bind; [apply alike_on_index|intros _].
    apply alike_on_stash, alike_consignment, Hc.
  - apply alike_bind; [apply alike_on_stash, leaves_keep, leaves_consume_witness|intros _]. apply alike_for. intros [cid b] Hi. destruct (Hk _ Hi) as [Ho Hs].
    unfold fascia_bundle, fascia_bundle_dbg. apply alike_bind; [destruct (known_subset _); [apply alike_ret|apply alike_fail]|intros _].
    apply alike_bind; [apply alike_on_index|intros _]. apply alike_bind; [apply alike_on_state, alike_from_bundle; exact Hs|intros _].
    apply alike_bind; [apply alike_on_stash, alike_consume_bundle, Hc|intros _; apply alike_ret].
  - apply alike_on_stash, leaves_keep, leaves_consume_kit.
  - apply alike_bind; [|intros; apply alike_ret]. apply alike_on_stash, leaves_keep. intros s. unfold store_secret_seal, add_secret_seal, bind, get, grown, lift. cbv zeta. destruct (cpush _ _ _); reflexivity.
  - apply alike_bind; [apply alike_on_state, alike_update|intros; apply alike_ret].
  - apply alike_ret.
Qed.

Lemma run_same (K : Merkle) l s : (forall c, In c l -> stock_call_ok H c) -> sk_good s -> run (stock_body_dbg H K) l s = run (stock_body H K) l s.
Proof.
  revert s. induction l as [|c l IH]; intros s Hk Hs; [reflexivity|]. cbn [run].
  destruct (alike_body K c (Hk c (or_introl eq_refl)) s Hs) as [E Hi]. rewrite E. destruct (stock_body H K c s) as [s' r]. cbn [fst] in Hi.
  rewrite (IH s'); [reflexivity|intros; apply Hk; right; assumption|exact Hi].
Qed.
Lemma good_empty : sk_good sk_empty.
Proof. split; [intros id b; discriminate|intros cid cs; discriminate]. Qed.
End State.
