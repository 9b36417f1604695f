(** * Consuming a fascia: property C57 *)
From Verif Require Import Base StM Core Ser ContainerModel ContainerSpec MergeModel MergeSpec MergeProofs PIndexModel PIndexSpec PIndexProofs.
From Verif Require Import StateModel StateSpec StateProofs StashModel StashSpec StashProofs StashAgain.
From Verif Require Import StockModel StockSpec StockProofs StockAgain StateProps StockProps ConsignModel ConsignSpec ConsignProofs ConsignProps.
Local Open Scope N_scope.

(** ** Specification *)

(** Every transition a bundle shows is named by its input map. *)
Definition all_named (b : Bundle) : Prop :=
  forall id t, In (id, t) (b_known b) -> exists i, In (i, id) (b_inputs b).

(** Calls to a stash which all succeed *)
Fixpoint stash_all_succeed (H : Hashes) (K : Merkle) (s : MemStash) (l : list StashCall) : Prop :=
  match l with
  | [] => True
  | c :: l' => snd (stash_call H K c s) = Ok tt /\ stash_all_succeed H K (fst (stash_call H K c s)) l'
  end.

(** ** Proofs *)

Lemma known_subset_ok b : known_subset b = true <-> all_named b.
Proof.
  unfold known_subset, all_named. rewrite forallb_forall. split.
  - intros Hf id t Hin. specialize (Hf id (in_map fst _ _ Hin)). apply existsb_exists in Hf as (x & Hx & E).
    apply N.eqb_eq in E. subst x. unfold mvals in Hx. apply in_map_iff in Hx as ([i v] & E & Hi). cbn [snd] in E. subst v.
    exists i. exact Hi.
  - intros Hn id Hin. unfold mkeys in Hin. apply in_map_iff in Hin as ([k t] & E & Hin). cbn [fst] in E. subst k.
    destruct (Hn id t Hin) as (i & Hi). apply existsb_exists. exists id. split; [|apply N.eqb_refl].
    unfold mvals. apply in_map_iff. exists (i, id). auto.
Qed.

Section Fascia.
Context {OG : OrdKey GlobalOut}.
Context (H : Hashes) (K : Merkle).

Definition ix_of (w : WitnessId) (p : N * Bundle) : IndexCall := IxBundle (fst p) (snd p) w.
Definition st_of (w : WitnessId) (r : Resolver) (p : N * Bundle) : StateCall := StBundle (fst p) (snd p) w r.
Definition sh_of (p : N * Bundle) : StashCall := ShBundle (snd p).

Definition step (w : WitnessId) (r : Resolver) (p : N * Bundle) (s : Stock) : Stock :=
  {| sk_stash := fst (stash_call H K (sh_of p) (sk_stash s));
     sk_state := fst (state_call H (st_of w r p) (sk_state s));
     sk_index := fst (index_call H (ix_of w p) (sk_index s)) |}.

Definition passes (w : WitnessId) (r : Resolver) (p : N * Bundle) (s : Stock) : Prop :=
  all_named (snd p) /\ snd (index_call H (ix_of w p) (sk_index s)) = Ok tt /\
  snd (state_call H (st_of w r p) (sk_state s)) = Ok tt /\
  snd (stash_call H K (sh_of p) (sk_stash s)) = Ok tt.

Lemma fascia_bundle_ok w r p s s' :
  fascia_bundle H w r p s = (s', Ok tt) <-> passes w r p s /\ s' = step w r p s.
Proof.
  unfold fascia_bundle, passes, step. destruct (known_subset (snd p)) eqn:Ek.
  2: { split; [discriminate|]. intros ((Hn & _) & _). apply known_subset_ok in Hn. congruence. }
  apply known_subset_ok in Ek. unfold ix_of, st_of, sh_of. cbn [index_call state_call stash_call].
  unfold bind, ret, on_index, on_state, on_stash.
  destruct (pindex_bundle H (fst p) (snd p) w (sk_index s)) as [i ri]. destruct ri as [[]|e|]; cbn [rmap_err fst snd];
    [|split; [discriminate|intros ((_ & E & _) & _); discriminate E] ..].
  cbn [sk_stash sk_state sk_index].
  destruct (update_from_bundle H (fst p) (snd p) w r (sk_state s)) as [t rt]. destruct rt as [[]|e|]; cbn [rmap_err fst snd];
    [|split; [discriminate|intros ((_ & _ & E & _) & _); discriminate E] ..].
  cbn [sk_stash sk_state sk_index].
  destruct (consume_bundle H (snd p) (sk_stash s)) as [h rh]. destruct rh as [x|e|]; cbn [rmap_err fst snd];
    [|split; [discriminate|intros ((_ & _ & _ & E) & _); discriminate E] ..].
  split; [intros E; injection E as <-; auto|intros (_ & ->); reflexivity].
Qed.

(** A refused bundle: nothing is written *)
Lemma fascia_bundle_bad w r p s : ~ all_named (snd p) ->
  fascia_bundle H w r p s = (s, Err (InvalidBundle (fst p) (bundle_id H (snd p)))).
Proof.
  intros Hn. unfold fascia_bundle. destruct (known_subset (snd p)) eqn:Ek; [|reflexivity].
  apply known_subset_ok in Ek. contradiction.
Qed.

Lemma fascia_bundle_err w r p s s' e : fascia_bundle H w r p s = (s', Err e) ->
  (exists cid bid, e = InvalidBundle cid bid) -> ~ all_named (snd p) /\ e = InvalidBundle (fst p) (bundle_id H (snd p)) /\ s' = s.
Proof.
  intros E (cid & bid & He). destruct (known_subset (snd p)) eqn:Ek.
  - exfalso. unfold fascia_bundle, bind, ret, on_index, on_state, on_stash in E. rewrite Ek in E.
    destruct (pindex_bundle H (fst p) (snd p) w (sk_index s)) as [i [?|?|]]; cbn [rmap_err] in E; [|congruence|discriminate E].
    cbn [sk_stash sk_state sk_index] in E.
    destruct (update_from_bundle H (fst p) (snd p) w r (sk_state s)) as [t [?|?|]]; cbn [rmap_err] in E; [|congruence|discriminate E].
    cbn [sk_stash sk_state sk_index] in E.
    destruct (consume_bundle H (snd p) (sk_stash s)) as [h [?|?|]]; cbn [rmap_err] in E; [discriminate E|congruence|discriminate E].
  - assert (Hn : ~ all_named (snd p)) by (intros Hn; apply known_subset_ok in Hn; congruence).
    rewrite fascia_bundle_bad in E by exact Hn. injection E as <- <-. auto.
Qed.

Lemma fascia_loop_ok w r l s s' :
  mfor (fascia_bundle H w r) l s = (s', Ok tt) <->
  (forall p, In p l -> all_named (snd p)) /\
  (all_succeed H (sk_index s) (map (ix_of w) l) /\ sk_index s' = index_calls H (map (ix_of w) l) (sk_index s)) /\
  (sall_succeed H (sk_state s) (map (st_of w r) l) /\ sk_state s' = state_calls H (map (st_of w r) l) (sk_state s)) /\
  (stash_all_succeed H K (sk_stash s) (map sh_of l) /\ sk_stash s' = stash_after H K (sk_stash s) (map sh_of l)).
Proof.
  revert s. induction l as [|p l IH]; intros s.
  - cbn [mfor map all_succeed sall_succeed stash_all_succeed]. unfold ret. split.
    + intros E. injection E as <-. split; [intros p []|]. auto.
    + intros (_ & (_ & E1) & (_ & E2) & (_ & E3)). f_equal. destruct s, s'. cbn in *. congruence.
  - cbn [mfor map all_succeed sall_succeed stash_all_succeed]. unfold bind.
    assert (Hs : forall x, succeeds H x (ix_of w p) <-> snd (index_call H (ix_of w p) x) = Ok tt).
    { intros x. unfold succeeds. destruct (index_call H (ix_of w p) x) as [y e]. cbn [snd]. split.
      - intros (y' & E). congruence.
      - intros ->. eauto. }
    assert (Ht : forall x, ssucceeds H x (st_of w r p) <-> snd (state_call H (st_of w r p) x) = Ok tt).
    { intros x. unfold ssucceeds. destruct (state_call H (st_of w r p) x) as [y e]. cbn [snd]. split.
      - intros (y' & E). congruence.
      - intros ->. eauto. }
    destruct (fascia_bundle H w r p s) as [s1 e1] eqn:E1.
    destruct e1 as [[]|e|].
    + apply fascia_bundle_ok in E1 as ((P1 & P2 & P3 & P4) & ->). rewrite IH. unfold step. cbn [sk_stash sk_state sk_index].
      rewrite Hs, Ht. cbn [index_calls fold_left state_calls stash_after]. split.
      * intros (Q1 & (Q2 & Q3) & (Q4 & Q5) & (Q6 & Q7)). repeat (split; auto). intros q [<-|Hq]; auto.
      * intros (Q1 & ((_ & Q2) & Q3) & ((_ & Q4) & Q5) & ((_ & Q6) & Q7)). repeat (split; auto). intros q Hq. apply Q1. right; exact Hq.
    + split; [discriminate|]. intros (Q1 & ((Q2 & _) & _) & ((Q4 & _) & _) & ((Q6 & _) & _)).
      assert (E : fascia_bundle H w r p s = (step w r p s, Ok tt)).
      { apply fascia_bundle_ok. split; [|reflexivity]. split; [apply Q1; left; reflexivity|]. split; [apply Hs, Q2|]. split; [apply Ht, Q4|exact Q6]. }
      congruence.
    + split; [discriminate|]. intros (Q1 & ((Q2 & _) & _) & ((Q4 & _) & _) & ((Q6 & _) & _)).
      assert (E : fascia_bundle H w r p s = (step w r p s, Ok tt)).
      { apply fascia_bundle_ok. split; [|reflexivity]. split; [apply Q1; left; reflexivity|]. split; [apply Hs, Q2|]. split; [apply Ht, Q4|exact Q6]. }
      congruence.
Qed.

Definition fa_seal (f : Fascia) : SealWitness := {| sw_public := fa_witness f; sw_anchors := fa_anchor f |}.

Lemma fascia_ok f r s s' :
  fascia_body H f r s = (s', Ok tt) <->
  let w := fascia_witness_id f in let l := fascia_bundles f in
  (forall p, In p l -> all_named (snd p)) /\
  (all_succeed H (sk_index s) (map (ix_of w) l) /\ sk_index s' = index_calls H (map (ix_of w) l) (sk_index s)) /\
  (sall_succeed H (sk_state s) (map (st_of w r) l) /\ sk_state s' = state_calls H (map (st_of w r) l) (sk_state s)) /\
  (stash_all_succeed H K (sk_stash s) (ShWitness (fa_seal f) :: map sh_of l) /\
   sk_stash s' = stash_after H K (sk_stash s) (ShWitness (fa_seal f) :: map sh_of l)).
Proof.
  cbv zeta. unfold fascia_body, bind at 1, on_stash. fold (fa_seal f).
  cbn [stash_all_succeed stash_after fold_left stash_call]. unfold bind, ret.
  destruct (consume_witness (fa_seal f) (sk_stash s)) as [h rh]. destruct rh as [x|e|]; cbn [rmap_err fst snd];
    [|split; [discriminate|intros (_ & _ & _ & ((E & _) & _)); discriminate E] ..].
  rewrite fascia_loop_ok. cbn [sk_stash sk_state sk_index]. unfold stash_after. split.
  - intros (Q1 & Q2 & Q3 & Q4 & Q5). auto 10.
  - intros (Q1 & Q2 & Q3 & (_ & Q4) & Q5). auto 10.
Qed.
End Fascia.

(** ** The stash *)

Section Stash.
Context (H : Hashes) (K : Merkle).

Lemma witness_bundles w s : st_bundles (fst (stash_call H K (ShWitness w) s)) = st_bundles s.
Proof.
  cbn [stash_call]. unfold consume_witness, replace_witness, grown, bind, get, put, ret, lift, fail.
  destruct (mget (sw_id w) (st_witnesses s)) as [old|].
  - destruct (merge_xpub _ _) as [x|e|]; cbn [rmap_err]; [|reflexivity..].
    destruct (merge_anchors _ _) as [a|e|]; cbn [rmap_err]; [|reflexivity..].
    destruct (cinsert _ _ _ _); reflexivity.
  - destruct (cinsert _ _ _ _); reflexivity.
Qed.

Lemma bundle_elsewhere b s bid : filed H s -> bid <> bundle_id H b ->
  mget bid (st_bundles (fst (stash_call H K (ShBundle b) s))) = mget bid (st_bundles s).
Proof.
  intros Fi Ne. cbn [stash_call]. unfold consume_bundle, replace_bundle, grown, bind, get, put, ret, lift, fail.
  destruct (mget (bundle_id H b) (st_bundles s)) as [old|] eqn:Eo.
  - destruct (merge_bundle H old b) as [x|e|] eqn:Em; cbn [rmap_err]; [|reflexivity..].
    assert (Ei : bundle_id H x = bundle_id H b).
    { apply merge_bundle_id in Em. rewrite Em. eapply fi_bundle; eassumption. }
    rewrite Ei. unfold cinsert. destruct (_ <? _); cbn [fst]; [|reflexivity]. cbn [st_bundles with_bundles].
    apply mget_insert_ne. auto.
  - unfold cinsert. destruct (_ <? _); cbn [fst]; [|reflexivity]. cbn [st_bundles with_bundles]. apply mget_insert_ne. auto.
Qed.

Lemma bundle_fresh b s : mget (bundle_id H b) (st_bundles s) = None -> snd (stash_call H K (ShBundle b) s) = Ok tt ->
  mget (bundle_id H b) (st_bundles (fst (stash_call H K (ShBundle b) s))) = Some b.
Proof.
  cbn [stash_call]. unfold consume_bundle, replace_bundle, grown, bind, get, put, ret, lift, fail. intros ->.
  unfold cinsert. destruct (_ <? _); cbn [fst snd]; [|discriminate]. intros _. cbn [st_bundles with_bundles]. apply mget_insert_eq.
Qed.

Context (HC : collision_free H).

Lemma stash_good c s : call_ok H c -> good H s -> good H (fst (stash_call H K c s)).
Proof.
  intros Co Go. destruct (call_steps (careful H) H K c s) as [T|(id & l & _ & ->)].
  - destruct c; simpl in *; auto. split; [apply Co|]. split; [apply Co|]. intros wb p Hw Hp. eapply co_bundles; eauto.
  - eapply good_steps; eassumption.
  - destruct Go as [F G1 G2 G3]. constructor; try assumption. destruct F; constructor; assumption.
Qed.

Lemma bundles_elsewhere (l : list (N * Bundle)) s bid : good H s -> (forall p, In p l -> bundle_ok H (snd p)) ->
  (forall p, In p l -> bid <> bundle_id H (snd p)) ->
  mget bid (st_bundles (stash_after H K s (map sh_of l))) = mget bid (st_bundles s).
Proof.
  revert s. induction l as [|p l IH]; intros s Go Ok Ne; [reflexivity|]. cbn [map stash_after fold_left].
  unfold stash_after in IH. rewrite IH.
  - apply bundle_elsewhere; [apply Go|]. apply Ne. left; reflexivity.
  - apply stash_good; [|exact Go]. apply (Ok p). left; reflexivity.
  - intros q Hq. apply Ok. right; exact Hq.
  - intros q Hq. apply Ne. right; exact Hq.
Qed.

Lemma after_good (l : list (N * Bundle)) s : good H s -> (forall p, In p l -> bundle_ok H (snd p)) ->
  good H (stash_after H K s (map sh_of l)).
Proof.
  revert s. induction l as [|p l IH]; intros s Go Oks; [exact Go|]. cbn [map stash_after fold_left]. apply IH.
  - apply stash_good; [|exact Go]. apply (Oks p). left; reflexivity.
  - intros q Hq. apply Oks. right; exact Hq.
Qed.

Lemma stash_succeed_app s l1 l2 :
  stash_all_succeed H K s (l1 ++ l2) <-> stash_all_succeed H K s l1 /\ stash_all_succeed H K (stash_after H K s l1) l2.
Proof.
  revert s. induction l1 as [|c l1 IH]; intros s; cbn [app stash_all_succeed stash_after fold_left]; [tauto|].
  rewrite IH. unfold stash_after. tauto.
Qed.

Lemma bundles_stored (l1 l2 : list (N * Bundle)) p s : good H s -> (forall q, In q (l1 ++ p :: l2) -> bundle_ok H (snd q)) ->
  (forall q, In q (l1 ++ l2) -> bundle_id H (snd p) <> bundle_id H (snd q)) ->
  mget (bundle_id H (snd p)) (st_bundles s) = None ->
  stash_all_succeed H K s (map sh_of (l1 ++ p :: l2)) ->
  mget (bundle_id H (snd p)) (st_bundles (stash_after H K s (map sh_of (l1 ++ p :: l2)))) = Some (snd p).
Proof.
  intros Go Oks Ne E0 Su. rewrite map_app in *. cbn [map] in *. rewrite stash_after_app.
  apply stash_succeed_app in Su as (_ & Su2 & _).
  assert (G1 : good H (stash_after H K s (map sh_of l1))).
  { revert Go. assert (O1 : forall q, In q l1 -> bundle_ok H (snd q)) by (intros q Hq; apply Oks, in_or_app; auto).
    clear -HC O1. revert s. induction l1 as [|q l1 IH]; intros s Go; [exact Go|]. cbn [map stash_after fold_left].
    apply IH; [intros q' Hq'; apply O1; right; exact Hq'|]. apply stash_good; [|exact Go]. apply (O1 q). left; reflexivity. }
  assert (E1 : mget (bundle_id H (snd p)) (st_bundles (stash_after H K s (map sh_of l1))) = None).
  { rewrite bundles_elsewhere; auto.
    - intros q Hq. apply Oks, in_or_app. auto.
    - intros q Hq. apply Ne, in_or_app. auto. }
  change (sh_of p :: map sh_of l2) with ([sh_of p] ++ map sh_of l2). rewrite stash_after_app.
  cbn [stash_after fold_left]. rewrite bundles_elsewhere.
  - apply bundle_fresh; assumption.
  - apply stash_good; [|exact G1]. apply (Oks p). apply in_or_app. right. left. reflexivity.
  - intros q Hq. apply Oks, in_or_app. right. right. exact Hq.
  - intros q Hq. apply Ne, in_or_app. auto.
Qed.

Lemma bundles_merged (l1 l2 : list (N * Bundle)) p b0 s : good H s -> (forall q, In q (l1 ++ p :: l2) -> bundle_ok H (snd q)) ->
  (forall q, In q (l1 ++ l2) -> bundle_id H (snd p) <> bundle_id H (snd q)) ->
  mget (bundle_id H (snd p)) (st_bundles s) = Some b0 ->
  stash_all_succeed H K s (map sh_of (l1 ++ p :: l2)) ->
  exists r, merge_bundle H b0 (snd p) = Ok r /\
    mget (bundle_id H (snd p)) (st_bundles (stash_after H K s (map sh_of (l1 ++ p :: l2)))) = Some r.
Proof.
  intros Go Oks Ne E0 Su. rewrite map_app in *. cbn [map] in *. rewrite stash_after_app.
  apply stash_succeed_app in Su as (_ & Su2 & _).
  assert (G1 : good H (stash_after H K s (map sh_of l1))).
  { revert Go. assert (O1 : forall q, In q l1 -> bundle_ok H (snd q)) by (intros q Hq; apply Oks, in_or_app; auto).
    clear -HC O1. revert s. induction l1 as [|q l1 IH]; intros s Go; [exact Go|]. cbn [map stash_after fold_left].
    apply IH; [intros q' Hq'; apply O1; right; exact Hq'|]. apply stash_good; [|exact Go]. apply (O1 q). left; reflexivity. }
  assert (E1 : mget (bundle_id H (snd p)) (st_bundles (stash_after H K s (map sh_of l1))) = Some b0).
  { rewrite bundles_elsewhere; auto.
    - intros q Hq. apply Oks, in_or_app. auto.
    - intros q Hq. apply Ne, in_or_app. auto. }
  change (sh_of p :: map sh_of l2) with ([sh_of p] ++ map sh_of l2). rewrite stash_after_app.
  cbn [stash_after fold_left]. rewrite bundles_elsewhere.
  - revert Su2. set (s1 := stash_after H K s (map sh_of l1)) in *. cbn [stash_call sh_of].
    unfold consume_bundle, replace_bundle, grown, bind, get, put, ret, lift, fail. rewrite E1.
    destruct (merge_bundle H b0 (snd p)) as [b1|e|] eqn:Em; cbn [rmap_err fst snd]; try discriminate.
    assert (Ei : bundle_id H b1 = bundle_id H (snd p)).
    { rewrite (merge_bundle_id H _ _ _ Em). eapply fi_bundle; [apply go_filed, G1|exact E1]. }
    unfold cinsert. destruct (_ <? _); cbn [fst snd]; [|discriminate]. intros _. exists b1. split; [reflexivity|].
    cbn [st_bundles with_bundles]. rewrite Ei. apply mget_insert_eq.
  - apply stash_good; [|exact G1]. apply (Oks p). apply in_or_app. right. left. reflexivity.
  - intros q Hq. apply Oks, in_or_app. right. right. exact Hq.
  - intros q Hq. apply Ne, in_or_app. auto.
Qed.

Lemma bundles_had (l : list (N * Bundle)) s : good H s -> (forall p, In p l -> bundle_ok H (snd p)) ->
  stash_all_succeed H K s (map sh_of l) ->
  forall b, (has_bundle H b s /\ bundle_ok H b) \/ (exists p, In p l /\ b = snd p) -> has_bundle H b (stash_after H K s (map sh_of l)).
Proof.
  revert s. induction l as [|q l IH]; intros s Go Oks Su b Hb.
  - destruct Hb as [(Hb & _)|(p & [] & _)]. exact Hb.
  - cbn [map stash_after fold_left stash_all_succeed] in *. destruct Su as (S1 & S2).
    assert (Oq : bundle_ok H (snd q)) by (apply Oks; left; reflexivity).
    apply IH; [apply stash_good; [exact Oq|exact Go]|intros p Hp; apply Oks; right; exact Hp|exact S2|].
    destruct Hb as [(Hb & Ob)|(p & [<-|Hp] & ->)].
    + left. split; [|exact Ob]. destruct (call_steps (careful H) H K (sh_of q) s Oq) as [T|(id & lv & F & _)]; [|discriminate F].
      eapply kept_steps; [exact HC| |exact T|exact Go|exact Hb]. intros x y. apply bundle_kept; [exact HC|apply Ob].
    + left. split; [|exact Oq]. cbn [stash_call sh_of] in *. unfold bind, ret in *.
      destruct (consume_bundle H (snd q) s) as [s1 [x|e|]] eqn:E; cbn [fst snd] in *; try discriminate.
      eapply consume_bundle_leaves; [exact HC|exact Oq|exact Go|exact E].
    + right. exists p. auto.
Qed.
End Stash.

(** ** C57 *)

(** Consuming a fascia succeeds exactly if each transition of each bundle is named by the
    input map of the bundle and the index, the state and the stash take every bundle, one
    after another; the stash takes the witness before.  The new stock is what they make of
    it. *)
Theorem C57_exact : forall (OG : OrdKey GlobalOut) H K f r s s',
  fascia_body H f r s = (s', Ok tt) <->
  let w := fascia_witness_id f in let l := fascia_bundles f in
  let index := map (fun p => IxBundle (fst p) (snd p) w) l in
  let state := map (fun p => StBundle (fst p) (snd p) w r) l in
  let stash := ShWitness {| sw_public := fa_witness f; sw_anchors := fa_anchor f |} :: map (fun p => ShBundle (snd p)) l in
  (forall p, In p l -> all_named (snd p)) /\
  (all_succeed H (sk_index s) index /\ sk_index s' = index_calls H index (sk_index s)) /\
  (sall_succeed H (sk_state s) state /\ sk_state s' = state_calls H state (sk_state s)) /\
  (stash_all_succeed H K (sk_stash s) stash /\ sk_stash s' = stash_after H K (sk_stash s) stash).
Proof. intros OG H K f r s s'. apply fascia_ok. Qed.

(** What a user finds after success: every transition is found in its bundle, the bundle
    belongs to the contract it was given for and was closed by the witness, its outputs are
    listed; *)
Theorem C57_indexed : forall (OG : OrdKey GlobalOut) H K f r s s' cid b,
  collision_free H -> reachable H K s -> fascia_body H f r s = (s', Ok tt) -> In (cid, b) (fascia_bundles f) ->
  all_named b /\
  (exists ws, bundle_info (sk_index s') (bundle_id H b) = Ok (ws, cid) /\ In (fascia_witness_id f) ws) /\
  (forall id t, In (id, t) (b_known b) -> bundle_id_for_op (sk_index s') id = Ok (bundle_id H b) /\
     forall ty no a, assigned t ty no a ->
       let oo := {| oo_op := id; oo_ty := ty; oo_no := N.of_nat no |} in
       (forall x out, revealed_seal a = Some x -> seal_output (Some (fascia_witness_id f)) x out ->
          In cid (contracts_assigning (sk_index s') [os_outpoint out]) /\ states (sk_index s') (FOut cid out oo)) /\
       (forall sec, secret_of a = Some sec -> In oo (opouts_by_terminals (sk_index s') [sec]))).
Proof.
  intros OG H K f r s s' cid b HC Re E Hin. pose proof (reachable_sound H HC K s Re) as Sd.
  apply (fascia_ok H K) in E. cbv zeta in E. destruct E as (Hn & (Ai & Ei) & _).
  assert (F : forall x, bundle_announces H cid b (fascia_witness_id f) x -> states (sk_index s') x).
  { intros x Hx. rewrite Ei. apply calls_ok; [apply Sd|exact Ai|]. right. exists (ix_of (fascia_witness_id f) (cid, b)).
    split; [|exact Hx]. apply (in_map (ix_of (fascia_witness_id f)) _ _ Hin). }
  split; [apply (Hn _ Hin)|]. split.
  - assert (F1 := F _ (or_introl eq_refl)). destruct (F _ (or_intror (or_introl eq_refl))) as (ws & F2 & Hw).
    exists ws. split; [|exact Hw]. apply bundle_info_spec. auto.
  - intros id t Ht. assert (Fo := F (FOp id (bundle_id H b))). split.
    { unfold bundle_id_for_op. cbn [states] in Fo. rewrite Fo; [reflexivity|]. right. right. exists id, t. auto. }
    intros ty no a Ha oo. split.
    + intros x out Hx Ho. assert (Fx : states (sk_index s') (FOut cid out oo)).
      { apply F. right. right. exists id, t. split; [exact Ht|]. right. exists ty, no, a. split; [exact Ha|]. left. exists x, out. auto. }
      split; [|exact Fx]. apply contracts_assigning_spec; [rewrite Ei; apply calls_wf, Sd|].
      exists out, oo. split; [left; reflexivity|exact Fx].
    + intros sec Hs. apply opouts_by_terminals_spec. { rewrite Ei. apply calls_wf, Sd. }
      assert (Fx : states (sk_index s') (FTerm sec oo)).
      { apply F. right. right. exists id, t. split; [exact Ht|]. right. exists ty, no, a. split; [exact Ha|]. right. exists sec. auto. }
      exists sec. split; [left; reflexivity|exact Fx].
Qed.

(** every output with revealed seal and state is an allocation of the contract, and the
    status of the witness is the one resolved; *)
Lemma bundles_status {OG : OrdKey GlobalOut} H w r l s : sall_succeed H s (map (st_of w r) l) ->
  (forall x, x <> w -> mget x (ms_witnesses (state_calls H (map (st_of w r) l) s)) = mget x (ms_witnesses s)) /\
  ((mget w (ms_witnesses s) = r w /\ r w <> None) \/ (exists p, In p l /\ b_known (snd p) <> []) ->
   r w <> None /\ mget w (ms_witnesses (state_calls H (map (st_of w r) l) s)) = r w).
Proof.
  revert s. induction l as [|p l IH]; intros s Su.
  - split; [reflexivity|]. intros [[E N]|(p & [] & _)]. cbn. auto.
  - cbn [map sall_succeed state_calls fold_left] in *. destruct Su as ((s1 & E1) & Su). rewrite E1 in *. cbn [fst] in *.
    destruct (IH s1 Su) as (I1 & I2).
    destruct (C27_import_status OG H (st_of w r p) r s s1 (Ok tt)) as (A & B); [right; unfold st_of; eauto|exact E1|].
    specialize (B eq_refl). unfold st_of in A, B. cbn [touches] in A, B. split.
    + intros x Hx. unfold state_calls in I1. rewrite I1 by exact Hx. apply A. intros (_ & F). congruence.
    + intros Hd. apply I2. destruct Hd as [[E N]|(q & [<-|Hq] & Hk)].
      * left. split; [|exact N]. destruct (b_known (snd p)) as [|kp ks] eqn:Ek; [|apply B; split; [discriminate|reflexivity]].
        rewrite A; [exact E|]. intros (F & _). congruence.
      * left. destruct (B w) as (B1 & B2); [split; [exact Hk|reflexivity]|]. auto.
      * right. exists q. auto.
Qed.

Theorem C57_state : forall (OG : OrdKey GlobalOut) H K f r s s' cid b,
  collision_free H -> reachable H K s -> fascia_body H f r s = (s', Ok tt) -> In (cid, b) (fascia_bundles f) ->
  (forall t, In t (mvals (b_known b)) ->
     (forall ty ta no x st out, In (ty, ta) (op_assigns t) -> nth_error (ta_list ta) no = Some (Revealed x st) ->
        seal_output (Some (fascia_witness_id f)) x out ->
        exists a, oa_opout a = {| oo_op := op_id H t; oo_ty := ty; oo_no := N.of_nat no |} /\ oa_seal a = out /\
                  sstates (sk_state s') (SFOut cid (ta_kind ta) a)) /\
     (forall ty vals no d, In (ty, vals) (op_globals t) -> nth_error vals no = Some d ->
        exists d', sstates (sk_state s') (SFGlobal cid ty
          {| go_op := op_id H t; go_nonce := op_nonce t; go_index := N.of_nat no;
             go_witness := OWTransition (fascia_witness_id f) (op_ty t) |} d'))) /\
  (b_known b <> [] -> r (fascia_witness_id f) <> None /\
     mget (fascia_witness_id f) (ms_witnesses (sk_state s')) = r (fascia_witness_id f)) /\
  (forall w, w <> fascia_witness_id f -> mget w (ms_witnesses (sk_state s')) = mget w (ms_witnesses (sk_state s))).
Proof.
  intros OG H K f r s s' cid b HC Re E Hin. apply (fascia_ok H K) in E. cbv zeta in E. destruct E as (_ & _ & (As & Es) & _).
  assert (W : swf (sk_state s)).
  { destruct Re as (l & _ & ->). destruct (after_moved H K l sk_empty) as (_ & (l2 & E2 & _) & _). rewrite E2. apply safter_wf. }
  destruct (scalls_adds H (map (st_of (fascia_witness_id f) r) (fascia_bundles f)) _ W) as (_ & _ & _ & _ & G). specialize (G As (st_of (fascia_witness_id f) r (cid, b))).
  assert (G' : forall x, sgoals H (st_of (fascia_witness_id f) r (cid, b)) x -> shas (sk_state s') x).
  { intros x Hx. rewrite Es. apply G; [|exact Hx]. apply (in_map (st_of (fascia_witness_id f) r) _ _ Hin). }
  clear G. split; [|split].
  - intros t Ht. split.
    + intros ty ta no x st out Hta Hno Ho.
      destruct (G' (SFOut cid (ta_kind ta) {| oa_opout := {| oo_op := op_id H t; oo_ty := ty; oo_no := N.of_nat no |};
        oa_seal := out; oa_state := st; oa_witness := Some (fascia_witness_id f) |})) as (a & (Sa & Sb) & Hs).
      { exists (OWTransition (fascia_witness_id f) (op_ty t)), t. split; [cbn; auto|].
        exists ty, ta, no, x, st. cbn. auto 10. }
      exists a. auto.
    + intros ty vals no d Hv Hno. apply (G' (SFGlobal cid ty {| go_op := op_id H t; go_nonce := op_nonce t; go_index := N.of_nat no;
             go_witness := OWTransition (fascia_witness_id f) (op_ty t) |} d)).
      exists (OWTransition (fascia_witness_id f) (op_ty t)), t. split; [cbn; auto|]. exists vals, no. auto.
  - intros Hk. rewrite Es. apply (bundles_status H _ r (fascia_bundles f) _ As). right. exists (cid, b). auto.
  - intros w Hw. rewrite Es. apply (bundles_status H _ r (fascia_bundles f) _ As). exact Hw.
Qed.

(** the witness and the bundles are in the stash, and each transition of a bundle which was
    not known before is given back as it was.  A bundle known before keeps the transitions
    it had (C36). *)
Theorem C57_stored_partial : forall (OG : OrdKey GlobalOut) H K f r s s' cid b,
  collision_free H -> reachable H K s -> stock_call_ok H (SkFascia f r) ->
  fascia_body H f r s = (s', Ok tt) -> In (cid, b) (fascia_bundles f) ->
  (exists x, mget (fascia_witness_id f) (st_witnesses (sk_stash s')) = Some x) /\
  (exists b', mget (bundle_id H b) (st_bundles (sk_stash s')) = Some b' /\ bundle_id H b' = bundle_id H b) /\
  (mget (bundle_id H b) (st_bundles (sk_stash s)) = None ->
   NoDup (map (fun p => bundle_id H (snd p)) (fascia_bundles f)) ->
   mget (bundle_id H b) (st_bundles (sk_stash s')) = Some b /\
   forall id t, In (id, t) (b_known b) -> transition s' id = Ok t).
Proof.
  intros OG H K f r s s' cid b HC Re Ok E Hin. pose proof (reachable_sound H HC K s Re) as Sd.
  pose proof (C57_indexed _ _ _ _ _ _ _ _ _ HC Re E Hin) as (_ & _ & Ix).
  apply (fascia_ok H K) in E. cbv zeta in E. destruct E as (_ & _ & _ & (Ah & Eh)).
  cbn [stash_all_succeed stash_after fold_left] in Ah, Eh. destruct Ah as (A1 & A2).
  set (s1 := fst (stash_call H K (ShWitness (fa_seal f)) (sk_stash s))) in *.
  assert (G1 : good H s1) by (apply stash_good; [exact HC|exact I|apply Sd]).
  assert (Oks : forall p, In p (fascia_bundles f) -> bundle_ok H (snd p)) by (intros p Hp; apply (Ok p Hp)).
  split; [|split].
  - assert (W1 : exists x, mget (fascia_witness_id f) (st_witnesses s1) = Some x).
    { unfold s1. cbn [stash_call] in A1 |- *. unfold bind, ret in A1 |- *. fold s1.
      destruct (consume_witness (fa_seal f) (sk_stash s)) as [t [x|e|]] eqn:Ew; cbn [fst snd] in *; try discriminate.
      destruct (witness_new_leaves H _ _ _ _ (sd_stash _ _ Sd) Ew) as (st & Est & _). exists st. exact Est. }
    destruct W1 as (x & W1). exists x. rewrite Eh.
    assert (Ws : forall l t, st_witnesses (fold_left (fun s c => fst (stash_call H K c s)) (map sh_of l) t) = st_witnesses t).
    { induction l as [|p l IH]; intros t; [reflexivity|]. cbn [map fold_left]. rewrite IH. cbn [stash_call sh_of].
      unfold bind, ret. destruct (consume_bundle H (snd p) t) as [t1 e] eqn:Ec. apply consume_bundle_witnesses in Ec.
      destruct e; exact Ec. }
    rewrite Ws. exact W1.
  - rewrite Eh. destruct (bundles_had H K HC _ s1 G1 Oks A2 b) as (b' & Eb & _); [right; exists (cid, b); auto|].
    exists b'. split; [exact Eb|]. eapply fi_bundle; [|exact Eb]. apply go_filed.
    eapply (after_good H K HC). exact G1. exact Oks.
  - intros Ef Nd. assert (Eb : mget (bundle_id H b) (st_bundles (sk_stash s')) = Some b).
    { rewrite Eh. destruct (in_split _ _ Hin) as (l1 & l2 & El). rewrite El in *.
      apply (bundles_stored H K HC l1 l2 (cid, b) s1 G1 Oks); [| |exact A2].
      - intros q Hq F. rewrite map_app in Nd. cbn [map] in Nd. apply NoDup_remove in Nd as (_ & Nd). apply Nd.
        rewrite <- map_app. cbn [snd] in F |- *. rewrite F. apply (in_map (fun p => bundle_id H (snd p)) _ _ Hq).
      - unfold s1. rewrite witness_bundles. exact Ef. }
    split; [exact Eb|]. intros id t Ht. apply transition_ok. exists (bundle_id H b).
    destruct (Ix id t Ht) as (Io & _). unfold bundle_id_for_op in Io.
    split; [cbn [states]; destruct (mget id (mi_op_bundle (sk_index s'))); [apply Ok_inj in Io; congruence|discriminate Io]|].
    exists b. split; [exact Eb|]. apply In_mget; [apply (Oks _ Hin)|exact Ht].
Qed.

(** Of a bundle known before, the stock keeps the transitions it had, joined with what the
    fascia shows of them: the others are not taken. *)
Theorem C57_merged : forall (OG : OrdKey GlobalOut) H K f r s s' cid b b0,
  collision_free H -> reachable H K s -> stock_call_ok H (SkFascia f r) ->
  fascia_body H f r s = (s', Ok tt) -> In (cid, b) (fascia_bundles f) ->
  NoDup (map (fun p => bundle_id H (snd p)) (fascia_bundles f)) ->
  mget (bundle_id H b) (st_bundles (sk_stash s)) = Some b0 ->
  exists b', mget (bundle_id H b) (st_bundles (sk_stash s')) = Some b' /\ b_inputs b' = b_inputs b0 /\
    forall id, merged_known H (mget id (b_known b0)) (mget id (b_known b)) (mget id (b_known b')).
Proof.
  intros OG H K f r s s' cid b b0 HC Re Ok E Hin Nd E0. pose proof (reachable_sound H HC K s Re) as Sd.
  apply (fascia_ok H K) in E. cbv zeta in E. destruct E as (_ & _ & _ & (Ah & Eh)).
  cbn [stash_all_succeed stash_after fold_left] in Ah, Eh. destruct Ah as (A1 & A2).
  set (s1 := fst (stash_call H K (ShWitness (fa_seal f)) (sk_stash s))) in *.
  assert (G1 : good H s1) by (apply stash_good; [exact HC|exact I|apply Sd]).
  assert (Oks : forall p, In p (fascia_bundles f) -> bundle_ok H (snd p)) by (intros p Hp; apply (Ok p Hp)).
  destruct (in_split _ _ Hin) as (l1 & l2 & El).
  assert (X : exists r, merge_bundle H b0 b = Base.Ok r /\ mget (bundle_id H b) (st_bundles (sk_stash s')) = Some r).
  { rewrite Eh. rewrite El in *. apply (bundles_merged H K HC l1 l2 (cid, b) b0 s1 G1 Oks); [| |exact A2].
    - intros q Hq F. rewrite map_app in Nd. cbn [map] in Nd. apply NoDup_remove in Nd as (_ & Nd). apply Nd.
      rewrite <- map_app. cbn [snd] in F |- *. rewrite F. apply (in_map (fun p => bundle_id H (snd p)) _ _ Hq).
    - unfold s1. rewrite witness_bundles. exact E0. }
  destruct X as (b' & Em & Eb). exists b'. split; [exact Eb|].
  pose proof (merge_bundle_spec H b0 b (proj1 (proj2 (proj2 HC))) (go_bundle _ _ (sd_stash _ _ Sd) _ _ E0) (proj1 (Oks _ Hin))) as Sp.
  destruct (_ <? _) in Sp; [congruence|]. destruct Sp as (b1 & E1 & _ & Hi & _ & Hk). rewrite Em in E1. apply Ok_inj in E1. subst b1. auto.
Qed.

Lemma refused_loop {OG : OrdKey GlobalOut} H w r l1 p l2 s s' e : ~ all_named (snd p) ->
  mfor (fascia_bundle H w r) (l1 ++ p :: l2) s = (s', e) ->
  (exists n, sk_index s' = index_calls H (map (fun q => IxBundle (fst q) (snd q) w) (firstn n l1)) (sk_index s)) /\
  (exists n, sk_state s' = state_calls H (map (fun q => StBundle (fst q) (snd q) w r) (firstn n l1)) (sk_state s)).
Proof.
  intros Hb. revert s. induction l1 as [|q l1 IH]; intros s; cbn [app mfor]; unfold bind at 1.
  - rewrite fascia_bundle_bad by exact Hb. intros E. injection E as <- _. split; exists O; reflexivity.
  - destruct (fascia_bundle H w r q s) as [s1 e1] eqn:Eq. intros E.
    unfold fascia_bundle in Eq. destruct (known_subset (snd q)); unfold bind, ret, fail in Eq.
    2: { injection Eq as <- <-. injection E as <- _. split; exists O; reflexivity. }
    unfold on_index, on_state, on_stash in Eq.
    destruct (pindex_bundle H (fst q) (snd q) w (sk_index s)) as [i1 ri] eqn:Ei. destruct ri as [ui|ei|]; cbn [rmap_err] in Eq.
    2,3: injection Eq as <- <-; injection E as <- _; cbn [sk_index sk_state]; split;
      [exists 1%nat; cbn [firstn map index_calls fold_left index_call]; rewrite Ei; reflexivity|exists O; reflexivity].
    cbn [sk_stash sk_state sk_index] in Eq.
    destruct (update_from_bundle H (fst q) (snd q) w r (sk_state s)) as [t1 rt] eqn:Et. destruct rt as [ut|et|]; cbn [rmap_err] in Eq.
    2,3: injection Eq as <- <-; injection E as <- _; cbn [sk_index sk_state]; split; exists 1%nat;
      cbn [firstn map index_calls fold_left index_call state_calls state_call]; rewrite ?Ei, ?Et; reflexivity.
    cbn [sk_stash sk_state sk_index] in Eq.
    destruct (consume_bundle H (snd q) (sk_stash s)) as [h1 rh]. destruct rh as [uh|eh|]; cbn [rmap_err] in Eq.
    2,3: injection Eq as <- <-; injection E as <- _; cbn [sk_index sk_state]; split; exists 1%nat;
      cbn [firstn map index_calls fold_left index_call state_calls state_call]; rewrite ?Ei, ?Et; reflexivity.
    injection Eq as <- <-. destruct (IH _ E) as ((n & E1) & (m & E2)). cbn [sk_index sk_state] in E1, E2. split.
    + exists (S n). cbn [firstn map index_calls fold_left index_call]. rewrite Ei. exact E1.
    + exists (S m). cbn [firstn map state_calls fold_left state_call]. rewrite Et. exact E2.
Qed.

(** A bundle with a transition not named by its input map is refused: the call does not
    succeed, and nothing of the bundle or of those after it is recorded. *)
Theorem C57_refused : forall (OG : OrdKey GlobalOut) H f r s l1 p l2,
  fascia_bundles f = l1 ++ p :: l2 -> ~ all_named (snd p) ->
  let w := fascia_witness_id f in
  let s' := fst (fascia_body H f r s) in
  snd (fascia_body H f r s) <> Ok tt /\
  (exists n, sk_index s' = index_calls H (map (fun q => IxBundle (fst q) (snd q) w) (firstn n l1)) (sk_index s)) /\
  (exists n, sk_state s' = state_calls H (map (fun q => StBundle (fst q) (snd q) w r) (firstn n l1)) (sk_state s)).
Proof.
  intros OG H f r s l1 p l2 El Hb w s'. split.
  - intros E. destruct (fascia_body H f r s) as [s1 e] eqn:Ef. cbn [snd] in E. subst e.
    apply (fascia_ok H {| mk_with := fun _ _ m => Some m; mk_proof := fun _ k c => mget c k |}) in Ef. destruct Ef as (Hn & _).
    apply Hb, Hn. rewrite El. apply in_or_app. right. left. reflexivity.
  - unfold s'. destruct (fascia_body H f r s) as [s1 e1] eqn:Ef. cbn [fst]. clear s'.
    unfold fascia_body, bind at 1, on_stash in Ef. fold w in Ef.
    destruct (consume_witness _ (sk_stash s)) as [h e]. destruct e as [x|e|]; cbn [rmap_err] in Ef;
      [|injection Ef as <- _; split; exists O; reflexivity ..].
    rewrite El in Ef. apply refused_loop in Ef; [|exact Hb]. exact Ef.
Qed.

(** The error says which bundle it was: reported only for a bundle of the fascia with such a
    transition, *)
Theorem C57_error_sound : forall (OG : OrdKey GlobalOut) H f r s s' cid bid,
  fascia_body H f r s = (s', Err (InvalidBundle cid bid)) ->
  exists b, In (cid, b) (fascia_bundles f) /\ ~ all_named b /\ bid = bundle_id H b.
Proof.
  intros OG H f r s s' cid bid. unfold fascia_body, bind at 1, on_stash.
  destruct (consume_witness _ (sk_stash s)) as [h e]. destruct e as [x|e|]; cbn [rmap_err]; [|discriminate..].
  generalize {| sk_stash := h; sk_state := sk_state s; sk_index := sk_index s |}. clear s.
  induction (fascia_bundles f) as [|p l IH]; intros s; cbn [mfor]; [discriminate|]. unfold bind.
  destruct (fascia_bundle H (fascia_witness_id f) r p s) as [s1 [u|e|]] eqn:E1.
  - intros E. destruct (IH s1 E) as (b & Hb & Hx). exists b. split; [right; exact Hb|exact Hx].
  - intros E. injection E as <- ->. apply fascia_bundle_err in E1; [|eauto]. destruct E1 as (Hn & E & _).
    injection E as -> ->. exists (snd p). split; [left; destruct p; reflexivity|]. auto.
  - discriminate.
Qed.

(** and whenever the witness and the bundles before are taken. *)
Theorem C57_error_complete : forall (OG : OrdKey GlobalOut) H f r s l1 p l2 s1,
  fascia_bundles f = l1 ++ p :: l2 -> ~ all_named (snd p) ->
  (on_stash (consume_witness {| sw_public := fa_witness f; sw_anchors := fa_anchor f |}) ;;!
   mfor (fascia_bundle H (fascia_witness_id f) r) l1) s = (s1, Ok tt) ->
  fascia_body H f r s = (s1, Err (InvalidBundle (fst p) (bundle_id H (snd p)))).
Proof.
  intros OG H f r s l1 p l2 s1 El Hb. unfold fascia_body, bind. destruct (on_stash _ s) as [s0 [x|e|]]; [|discriminate..].
  rewrite El. clear El. revert s0. induction l1 as [|q l1 IH]; intros s0; cbn [app mfor]; unfold bind, ret.
  - intros E. injection E as <-. rewrite fascia_bundle_bad by exact Hb. reflexivity.
  - destruct (fascia_bundle H (fascia_witness_id f) r q s0) as [s2 [u|e|]]; [|discriminate..]. apply IH.
Qed.

(** *** Example: the stock of C34, a transition spending its last output *)

Definition fx_next (a : list Assign) : Operation := cn_op OpTransition 2 [cn_in (cn_id cn_a)] a.
Definition fx_out : Seal :=
  {| s_layer := Bitcoin; s_method := TapretFirst; s_txid := None; s_vout := 1; s_blinding := 5 |}.
Definition fx_trans : Operation := fx_next [Revealed fx_out RVoid; ConfidentialSeal 77 RVoid].
Definition fx_anchor : AnchorSet :=
  ASTapret {| an_root := 1; an_known := [(cn_cid, 5)]; an_dbc := 0 |}.
Definition fx_fascia (b : Bundle) : Fascia :=
  {| fa_witness := {| xw_layer := Bitcoin; xw_pub := PwTxid 10 |}; fa_anchor := fx_anchor;
     fa_bundles := [(cn_cid, di_single b)] |}.
Definition fx_bundle : Bundle := cn_bundle bit_hashes [fx_trans].
(** the same, but the transition shown is not the one of the input map *)
Definition fx_bad : Bundle :=
  {| b_method := TapretFirst; b_inputs := b_inputs fx_bundle; b_known := b_known (cn_bundle bit_hashes [fx_next []]) |}.

Example C57_nonvacuous : forall OG : OrdKey GlobalOut, let s := cn_stock [] cn_a in let f := fx_fascia fx_bundle in
  collision_free bit_hashes /\ reachable bit_hashes cn_merkle s /\ stock_call_ok bit_hashes (SkFascia f yes_witness) /\
  snd (fascia_body bit_hashes f yes_witness s) = Ok tt /\ In (cn_cid, fx_bundle) (fascia_bundles f) /\
  mget (bundle_id bit_hashes fx_bundle) (st_bundles (sk_stash s)) = None /\
  NoDup (map (fun p => bundle_id bit_hashes (snd p)) (fascia_bundles f)) /\
  transition (fst (fascia_body bit_hashes f yes_witness s)) (op_id bit_hashes fx_trans) = Ok fx_trans /\
  ~ all_named fx_bad /\
  snd (fascia_body bit_hashes (fx_fascia fx_bad) yes_witness s) = Err (InvalidBundle cn_cid (bundle_id bit_hashes fx_bad)).
Proof.
  intros OG s f. split; [apply bit_collision_free|]. split; [apply cn_reachable; vm_compute; reflexivity|].
  split. { intros p [<-|[]]. apply bundle_okb_ok. vm_compute. reflexivity. }
  split; [vm_compute; reflexivity|]. split; [left; reflexivity|]. split; [vm_compute; reflexivity|].
  split; [repeat constructor; intros []|]. split; [vm_compute; reflexivity|]. split; [|vm_compute; reflexivity].
  intros F. apply known_subset_ok in F. vm_compute in F. discriminate F.
Qed.

(** So a transition which the wallet shows in a bundle known before without it is not found
    afterwards. *)
Definition fx_hidden : Bundle :=
  let b := cn_bundle bit_hashes [cn_first bit_hashes; cn_other] in
  {| b_method := b_method b; b_inputs := b_inputs b; b_known := b_known (cn_bundle bit_hashes [cn_other]) |}.
Theorem C57_stored_refuted : forall OG : OrdKey GlobalOut, ~ forall H K f r s s' cid b id t,
  collision_free H -> reachable H K s -> stock_call_ok H (SkFascia f r) ->
  fascia_body H f r s = (s', Ok tt) -> In (cid, b) (fascia_bundles f) -> In (id, t) (b_known b) ->
  exists t', transition s' id = Ok t'.
Proof.
  intros OG Bad. set (s := stock_after bit_hashes cn_merkle sk_empty [SkAccept cn_hidden yes_witness]).
  set (f := fx_fascia fx_hidden). set (x := fascia_body bit_hashes f yes_witness s).
  assert (Re : reachable bit_hashes cn_merkle s).
  { exists [SkAccept cn_hidden yes_witness]. split; [|reflexivity]. intros c [<-|[]]. apply cons_okb_ok. vm_compute. reflexivity. }
  assert (E1 : snd x = Ok tt) by (vm_compute; reflexivity).
  assert (E2 : match transition (fst x) (op_id bit_hashes cn_other) with Ok _ => false | _ => true end = true) by (vm_compute; reflexivity).
  destruct (Bad bit_hashes cn_merkle f yes_witness s (fst x) cn_cid fx_hidden (op_id bit_hashes cn_other) cn_other bit_collision_free Re) as (t' & Et).
  - intros p [<-|[]]. apply bundle_okb_ok. vm_compute. reflexivity.
  - rewrite <- E1. apply surjective_pairing.
  - left. reflexivity.
  - vm_compute. left. reflexivity.
  - rewrite Et in E2. discriminate E2.
Qed.

Print Assumptions C57_exact.
Print Assumptions C57_indexed.
Print Assumptions C57_state.
Print Assumptions C57_stored_partial.
Print Assumptions C57_merged.
Print Assumptions C57_stored_refuted.
Print Assumptions C57_refused.
Print Assumptions C57_error_sound.
Print Assumptions C57_error_complete.
