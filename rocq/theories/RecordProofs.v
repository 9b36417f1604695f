(** Proofs for C88: the stash, and all together *)
From Verif Require Import Base StM Core HashExists MergeModel MergeSpec MergeProofs ContainerModel ContainerSpec ContainerProofs ContainerProps.
From Verif Require Import PIndexModel PIndexProofs StateModel StashModel StashSpec StashProofs StashAgain StockModel FasciaProps.
From Verif Require Import AcceptSpec AcceptProofs AcceptState AcceptStash RecordSpec RecordIndex RecordState PIndexSpec.
Local Open Scope N_scope.

Section Stash.
Context (H : Hashes) (HC : collision_free H) (r : Resolver) (f : Fascia).

Definition hbad (s0 : MemStash) (e : StashError) : Prop :=
  let w := fascia_witness_id f in
  match e with
  | StashFull => ~ (len (st_bundles s0) + len (fascia_bundles f) <= U32MAX /\ len (st_witnesses s0) < U32MAX)
  | StashWitnessMerge e =>
      exists old, mget w (st_witnesses s0) = Some old /\
        pw_tx (xw_pub (sw_public old)) <> None /\ pw_tx (xw_pub (fa_witness f)) = None /\
        e = TxidMismatch (w_txid w) (w_txid w)
  | StashAnchor e =>
      exists old m x y, mget w (st_witnesses s0) = Some old /\
        anchor_under m (sw_anchors old) = Some x /\ anchor_under m (fa_anchor f) = Some y /\
        match e with DbcMismatch => an_dbc x <> an_dbc y | UnrelatedProof => an_root x <> an_root y end
  | _ => False
  end.

Lemma fascia_witness_runs s0 : good H s0 /\ fits s0 ->
  match consume_witness {| sw_public := fa_witness f; sw_anchors := fa_anchor f |} s0 with
  | (s', Ok _) => (good H s' /\ fits s') /\ st_bundles s' = st_bundles s0
  | (_, Err e) => hbad s0 e
  | (_, Panic) => False
  end.
Proof.
  intros Go. set (w := {| sw_public := fa_witness f; sw_anchors := fa_anchor f |}).
  assert (Ei : sw_id w = fascia_witness_id f) by reflexivity.
  pose proof (by_kept H HC _ (by_consume_witness (careful H) H w)) as Kp.
  destruct (consume_witness w s0) as [s' q] eqn:E. specialize (Kp _ _ _ E Go).
  unfold consume_witness in E. unfold bind at 1, get at 1 in E. rewrite Ei in E.
  assert (R : forall w', replace_witness w' s0 = (s', q) ->
    match q with
    | Ok _ => (good H s' /\ fits s') /\ st_bundles s' = st_bundles s0
    | Err e => hbad s0 e
    | Panic => False
    end).
  { intros w'. unfold replace_witness, bind at 1, get at 1, bind at 1, grown, lift, cinsert.
    destruct (len (st_witnesses s0) <? U32MAX) eqn:El; cbn; intros [= <- <-].
    - split; [exact Kp|reflexivity].
    - cbn. apply N.ltb_ge in El. lia. }
  destruct (mget (fascia_witness_id f) (st_witnesses s0)) as [old|] eqn:Eo.
  2:{ unfold bind at 1, ret at 1 in E. apply (R w E). }
  assert (Eid : witness_id (sw_public old) = fascia_witness_id f) by (apply (fi_witness _ _ (go_filed _ _ (proj1 Go))) in Eo; exact Eo).
  unfold bind at 1, bind at 1, lift at 1 in E.
  destruct (merge_xpub (sw_public old) (sw_public w)) as [p|e|] eqn:Em; cbn [rmap_err] in E.
  - unfold bind at 1, lift at 1 in E.
    destruct (merge_anchors (sw_anchors old) (sw_anchors w)) as [an|e|] eqn:Ea; cbn [rmap_err] in E.
    + unfold ret at 1 in E. exact (R _ E).
    + injection E as <- <-. apply anchors_refused in Ea as (m & x & y & Ex & Ey & Ee). cbn [sw_anchors w] in Ey.
      exists old, m, x, y. split; [exact Eo|]. split; [exact Ex|]. split; [exact Ey|]. destruct e; [exact Ee|congruence].
    + destruct (anchors_no_panic _ _ Ea).
  - injection E as <- <-. exists old. split; [exact Eo|].
    pose proof (C15_merge_partial (sw_public old) (sw_public w)) as P. pose proof (C15_errors _ _ _ Em) as Ee.
    assert (El : xw_layer (sw_public old) = xw_layer (fa_witness f) /\ pw_txid (xw_pub (sw_public old)) = pw_txid (xw_pub (fa_witness f))).
    { unfold fascia_witness_id, witness_id in Eid. split; congruence. }
    destruct El as [El1 El2]. cbn [sw_public w] in Ee, P. rewrite El1, keqb_refl, El2 in Ee.
    assert (Ek : keqb (witness_id (sw_public old)) (witness_id (fa_witness f)) = true) by (rewrite Eid; apply keqb_refl).
    rewrite Ek in P. change (sw_public w) with (fa_witness f) in Em.
    destruct (pw_tx (xw_pub (sw_public old))) as [t|]; destruct (pw_tx (xw_pub (fa_witness f))) as [t'|];
      try (destruct P as (p & P & _); congruence).
    split; [discriminate|]. split; [reflexivity|]. rewrite Ee. reflexivity.
  - exfalso. revert Em. unfold merge_xpub, merge_pub. clear.
    destruct (xw_layer _), (xw_layer _); cbn; try discriminate; destruct (xw_pub _), (xw_pub _); cbn; try discriminate;
      match goal with |- context [?x =? ?y] => destruct (x =? y) end; discriminate.
Qed.

Lemma fascia_stash_bundle b s : bundle_ok H b -> good H s /\ fits s ->
  match consume_bundle H b s with
  | (s', Ok _) => (good H s' /\ fits s') /\ len (st_bundles s') <= len (st_bundles s) + 1
  | (_, Err e) => e = StashFull /\ U32MAX <= len (st_bundles s)
  | (_, Panic) => False
  end.
Proof.
  intros Hb Go. pose proof (by_kept H HC _ (by_consume_bundle (careful H) H b Hb)) as Kp.
  destruct (consume_bundle H b s) as [s' q] eqn:E. specialize (Kp _ _ _ E Go).
  unfold consume_bundle in E. unfold bind at 1, get at 1 in E.
  assert (X : exists g', (match mget (bundle_id H b) (st_bundles s) with
             | Some old => lift (rmap_err StashMerge (merge_bundle H old b))
             | None => ret b
             end) s = (s, Ok g')).
  { destruct (mget _ (st_bundles s)) as [old|] eqn:Eo; [|eexists; reflexivity].
    pose proof (merge_bundle_spec H old b (fun x y => proj1 (proj2 (proj2 HC)) x y) (go_bundle _ _ (proj1 Go) _ _ Eo) (proj1 Hb)) as M.
    pose proof (proj2 Go _ _ Eo) as F. destruct (N.ltb_spec (len (b_inputs old)) (len (b_known old))); [lia|].
    destruct M as (g' & Eg & _). unfold lift. rewrite Eg. eexists. reflexivity. }
  destruct X as (g' & Eg). unfold bind at 1 in E. rewrite Eg in E.
  unfold replace_bundle, bind at 1, get at 1, bind at 1, grown, lift, cinsert in E.
  destruct (len (st_bundles s) <? U32MAX) eqn:El; cbn in E; injection E as <- <-.
  - split; [exact Kp|]. cbn.
    match goal with |- (len (@minsert ?K ?V ?O ?k ?v ?m) <= _)%N => pose proof (@len_insert_le K V O k v m) end. lia.
  - split; [reflexivity|]. apply N.ltb_ge, El.
Qed.
End Stash.

Section All.
Context {OG : OrdKey GlobalOut}.
Context (H : Hashes) (HC : collision_free H) (r : Resolver) (f : Fascia) (s0 : Stock).
Let w := fascia_witness_id f.

Definition facts_of (l : list (N * Bundle)) := flat_map (fun p : N * Bundle => bundle_facts H (fst p) (snd p) w) l.
Definition moves_in (l : list (N * Bundle)) :=
  flat_map (fun p : N * Bundle => map (fun q : N * Operation => (fst p, snd q)) (b_known (snd p))) l.

Record kinv (l : list (N * Bundle)) (s : Stock) : Prop := {
  ki_index : RecordIndex.inv (sk_index s0) (facts_of l) (sk_index s);
  ki_state : RecordState.sinv f (sk_state s0) (moves_in l) (sk_state s);
  ki_stash : (good H (sk_stash s) /\ fits (sk_stash s)) /\ len (st_bundles (sk_stash s)) <= len (st_bundles (sk_stash s0)) + len l
}.

Lemma facts_fascia x : In x (fascia_facts H f) <-> fascia_announces H f x.
Proof.
  unfold fascia_facts, fascia_announces. rewrite in_flat_map. split; intros (p & Hp & Hx); exists p; (split; [exact Hp|]); apply bundle_facts_In, Hx.
Qed.

Lemma index_bad e : RecordIndex.bad (fascia_facts H f) (sk_index s0) e -> fascia_refused H r s0 f (SkIndex e).
Proof.
  destruct e; cbn [RecordIndex.bad fascia_refused]; try exact (fun x => x).
  - intros (E & bid & Hb). split; [exact E|]. apply facts_fascia in Hb as (p & Hp & Hb).
    unfold bundle_announces in Hb. destruct Hb as [Hb|[Hb|(opid & t & _ & [Hb|Hb])]]; try discriminate Hb.
    + injection Hb as -> ->. exists (snd p). destruct p; exact Hp.
    + destruct Hb as (ty & no & a & _ & [(s & out & _ & _ & E')|(x & _ & E')]); discriminate E'.
  - rewrite <- !facts_fascia. exact (fun x => x).
  - rewrite <- !facts_fascia. exact (fun x => x).
Qed.

Lemma fascia_bundle_runs l p : In p (fascia_bundles f) -> bundle_ok H (snd p) -> within (l ++ [p]) (fascia_bundles f) ->
  runs (kinv l) (kinv (l ++ [p])) (fascia_refused H r s0 f) (fascia_breaks s0 f) (fascia_bundle H w r p).
Proof.
  intros Hin Hb Hw s I. destruct I as [Ii Is [Ig Il]]. destruct p as [cid b]. cbn [fst snd] in *.
  assert (Wf : within (facts_of l ++ bundle_facts H cid b w) (fascia_facts H f)).
  { destruct Hw as (y & E). exists (facts_of y). unfold fascia_facts. fold w. fold (facts_of (fascia_bundles f)). rewrite E.
    unfold facts_of. rewrite !flat_map_app. cbn [flat_map fst snd]. rewrite app_nil_r. reflexivity. }
  assert (Wm : within (moves_in l ++ map (fun q : N * Operation => (cid, snd q)) (b_known b)) (moves f)).
  { destruct Hw as (y & E). exists (moves_in y). unfold moves. fold (moves_in (fascia_bundles f)). rewrite E.
    unfold moves_in. rewrite !flat_map_app. cbn [flat_map fst snd]. rewrite app_nil_r. reflexivity. }
  unfold fascia_bundle. cbn [fst snd]. unfold bind at 1. destruct (known_subset b) eqn:Ek.
  2:{ cbn. exists b. split; [exact Hin|]. split; [reflexivity|]. intros Hn. apply known_subset_ok in Hn. congruence. }
  unfold ret at 1. unfold bind at 1, on_index.
  pose proof (RecordIndex.bundle_runs w (fascia_facts H f) (fascia_seal_lost f) (sk_index s0) H cid (facts_of l) b) as Rx.
  assert (Hl : forall opid t ty no a seal, In (opid, t) (b_known b) -> assigned t ty no a -> revealed_seal a = Some seal ->
    no_output (Some w) seal -> fascia_seal_lost f).
  { intros opid t ty no a seal Ht Ha Es No. exists (cid, t), ty, no, a, seal. split; [|auto].
    unfold moves. apply in_flat_map. exists (cid, b). split; [exact Hin|]. apply in_map_iff. exists (opid, t). auto. }
  specialize (Rx Hl Wf (sk_index s) Ii).
  destruct (pindex_bundle H cid b w (sk_index s)) as [ix [u|e|]]; cbn [rmap_err]; [|apply index_bad, Rx|left; exact Rx].
  unfold bind at 1, on_state. cbn [sk_state].
  pose proof (state_bundle_runs H r f (sk_state s0) (moves_in l) cid b Hin Wm (sk_state s) Is) as Rs.
  change (fascia_witness_id f) with w in Rs.
  destruct (update_from_bundle H cid b w r (sk_state s)) as [st [u2|e|]]; cbn [rmap_err]; [|exact Rs|exact Rs].
  unfold bind at 1, on_stash. cbn [sk_stash].
  pose proof (fascia_stash_bundle H HC b (sk_stash s) Hb Ig) as Rh.
  destruct (consume_bundle H b (sk_stash s)) as [sh [u3|e|]]; cbn [rmap_err]; [| |contradiction].
  - cbn. destruct Rh as [Rh1 Rh2]. constructor; cbn [sk_index sk_state sk_stash].
    + unfold facts_of. rewrite flat_map_app. cbn [flat_map fst snd]. rewrite app_nil_r. exact Rx.
    + unfold moves_in. rewrite flat_map_app. cbn [flat_map fst snd]. rewrite app_nil_r. exact Rs.
    + split; [exact Rh1|]. unfold len in *. rewrite app_length. cbn [length]. lia.
  - destruct Rh as [-> Rh]. cbn. intros [R _].
    assert (len l + 1 <= len (fascia_bundles f)).
    { destruct Hw as (y & ->). unfold len. rewrite !app_length. cbn [length]. lia. }
    lia.
Qed.

Lemma fascia_runs : good H (sk_stash s0) /\ fits (sk_stash s0) ->
  (forall p, In p (fascia_bundles f) -> bundle_ok H (snd p)) ->
  match fascia_body H f r s0 with
  | (_, Ok _) => True
  | (_, Err e) => fascia_refused H r s0 f e
  | (_, Panic) => fascia_breaks s0 f
  end.
Proof.
  intros Go Hb. unfold fascia_body, bind at 1, on_stash.
  pose proof (fascia_witness_runs H HC f (sk_stash s0) Go) as Rw.
  destruct (consume_witness _ (sk_stash s0)) as [sh [u|e|]]; cbn [rmap_err]; [|exact Rw|contradiction].
  destruct Rw as [Rw1 Rw2].
  set (s1 := {| sk_stash := sh; sk_state := sk_state s0; sk_index := sk_index s0 |}).
  assert (I : kinv [] s1).
  { constructor; cbn [sk_index sk_state sk_stash s1].
    - apply inv_start.
    - apply sinv_start.
    - split; [exact Rw1|]. rewrite Rw2. lia. }
  assert (R : runs (kinv []) (kinv ([] ++ flat_map (fun p => [p]) (fascia_bundles f))) (fascia_refused H r s0 f) (fascia_breaks s0 f)
    (mfor (fascia_bundle H w r) (fascia_bundles f))).
  { assert (Ef : flat_map (fun p : N * Bundle => [p]) (fascia_bundles f) = fascia_bundles f).
    { clear. induction (fascia_bundles f) as [|p l IH]; [reflexivity|]. cbn. f_equal. exact IH. }
    apply runs_mfor with (t := fascia_bundles f) (inv := kinv).
    - intros p x Hp Hx. apply fascia_bundle_runs; auto.
    - rewrite Ef. apply within_refl. }
  specialize (R s1 I). change (fascia_witness_id f) with w. destruct (mfor _ _ s1) as [s2 [[]|e|]]; [exact Logic.I|exact R|exact R].
Qed.
End All.
