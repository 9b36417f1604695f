(** * Proofs about exporting *)
From Verif Require Import Base StM Core MergeModel MergeSpec ContainerModel ContainerSpec ContainerProofs.
From Verif Require Import PIndexModel PIndexSpec PIndexProofs StateModel StateSpec StateProofs.
From Verif Require Import StashModel StashSpec StashProofs StashAgain StockModel StockProofs StockAgain.
From Verif Require Import ConsignModel ConsignSpec.
Local Open Scope N_scope.

(** ** The stocks *)

Record sound (H : Hashes) (s : Stock) : Prop := {
  sd_index : wf (sk_index s);
  sd_stash : good H (sk_stash s)
}.

Lemma reachable_sound {OG : OrdKey GlobalOut} H (HC : collision_free H) K s : reachable H K s -> sound H s.
Proof.
  intros (l & Hl & ->). destruct (after_moved H K l sk_empty) as ((l1 & E1 & P1) & _ & (l3 & E3 & P3)).
  constructor.
  - rewrite E1. apply calls_wf, wf_empty.
  - rewrite E3. apply good_after; [exact HC|]. eapply stash_of_ok; eassumption.
Qed.

Lemma known_in_fun s id bid t bid' t' : known_in s id bid t -> known_in s id bid' t' -> bid = bid' /\ t = t'.
Proof.
  intros (E & b & Eb & Et) (E' & b' & Eb' & Et'). unfold states in *.
  rewrite E in E'. apply Some_inj in E'. subst bid'. rewrite Eb in Eb'. apply Some_inj in Eb'. subst b'.
  rewrite Et in Et'. apply Some_inj in Et'. auto.
Qed.

Lemma transition_ok s id t : transition s id = Ok t <-> known_op s id t.
Proof.
  unfold transition, bundle_id_for_op, of_index, of_stash, stash_bundle, known_op, known_in, states.
  destruct (mget id (mi_op_bundle (sk_index s))) as [bid|] eqn:Ei; cbn.
  2: { split; [discriminate|]. intros (x & E & _). discriminate. }
  destruct (mget bid (st_bundles (sk_stash s))) as [b|] eqn:Eb; cbn.
  2: { split; [discriminate|]. intros (x & E & b & Eb' & _). injection E as <-. congruence. }
  destruct (mget id (b_known b)) as [t'|] eqn:Et; cbn.
  - split.
    + intros E. apply Ok_inj in E. subst t'. exists bid. split; [reflexivity|]. exists b. auto.
    + intros (x & E & b' & Eb' & Et'). injection E as <-. rewrite Eb in Eb'. apply Some_inj in Eb'. subst b'. congruence.
  - split; [discriminate|]. intros (x & E & b' & Eb' & Et'). injection E as <-.
    rewrite Eb in Eb'. apply Some_inj in Eb'. subst b'. congruence.
Qed.

Lemma transition_no_panic s id : transition s id <> Panic.
Proof.
  unfold transition, bundle_id_for_op, of_index, of_stash, stash_bundle.
  destruct (mget id (mi_op_bundle (sk_index s))) as [bid|]; cbn; [|discriminate].
  destruct (mget bid (st_bundles (sk_stash s))) as [b|]; cbn; [|discriminate].
  destruct (mget id (b_known b)); cbn; discriminate.
Qed.

Lemma select_live s ws w : select_valid_witness s ws = Ok w -> In w ws /\ live s (Some w).
Proof.
  induction ws as [|w0 ws IH]; cbn [select_valid_witness]; [discriminate|].
  unfold is_valid_witness. destruct (mget w0 (ms_witnesses s)) as [ord|] eqn:E0; cbn [ok_or rbind]; [|discriminate].
  destruct (ord_valid ord) eqn:Ev.
  - intros E. apply Ok_inj in E. subst w0. split; [left; reflexivity|]. exists ord. split; [exact E0|].
    intros ->. discriminate.
  - intros E. destruct (IH E) as [Hin L]. split; [right; exact Hin|exact L].
Qed.
Lemma select_no_panic s ws : select_valid_witness s ws <> Panic.
Proof.
  induction ws as [|w0 ws IH]; cbn [select_valid_witness]; [discriminate|].
  unfold is_valid_witness. destruct (mget w0 (ms_witnesses s)) as [ord|]; cbn [ok_or rbind]; [|discriminate].
  destruct (ord_valid ord); [discriminate|exact IH].
Qed.

(** What a client bundle made by the stock is *)
Definition made (K : Merkle) (s : Stock) (bid : N) (cb : ClientBundle) : Prop :=
  client_bundle K s bid = Ok cb.

Lemma client_bundle_ok K s bid cb : client_bundle K s bid = Ok cb ->
  exists ws cid w, bundle_info (sk_index s) bid = Ok (ws, cid) /\
    select_valid_witness (sk_state s) ws = Ok w /\ anchored K s bid w (cb_anchor cb) (cb_bundle cb) /\
    dp_method (cb_dbc cb) = b_method (cb_bundle cb).
Proof.
  unfold client_bundle. destruct (bundle_info (sk_index s) bid) as [[ws cid]|e|] eqn:Ei; cbn; try discriminate.
  unfold of_stash at 1, stash_bundle. destruct (mget bid (st_bundles (sk_stash s))) as [b|] eqn:Eb; cbn; [|discriminate].
  destruct (select_valid_witness (sk_state s) ws) as [w|e|] eqn:Es; cbn; try discriminate.
  unfold of_stash, stash_witness. destruct (mget w (st_witnesses (sk_stash s))) as [sw|] eqn:Ew; cbn; [|discriminate].
  destruct (select_live _ _ _ Es) as [Hin L]. apply bundle_info_spec in Ei as Ei'. destruct Ei' as [E1 E2].
  intros E. exists ws, cid, w. split; [reflexivity|]. split; [exact Es|].
  assert (Hk : forall an m, (match m with TapretFirst => tapret_of (sw_anchors sw) | OpretFirst => opret_of (sw_anchors sw) end) = Some an ->
     b_method b = m ->
     (let! proof := ok_or (WitnessMissesContract w bid cid) (mk_proof K (an_root an) (an_known an) cid) in
      client_bundle_new proof {| dp_method := m; dp_data := an_dbc an |} b) = Ok cb ->
     anchored K s bid w (cb_anchor cb) (cb_bundle cb) /\ dp_method (cb_dbc cb) = b_method (cb_bundle cb)).
  { intros an m Ha Em. destruct (mk_proof K (an_root an) (an_known an) cid) as [pr|] eqn:Ep; cbn; [|discriminate].
    unfold client_bundle_new. destruct (keqb _ _) eqn:Ek; [|discriminate]. intros E'. apply Ok_inj in E'. subst cb.
    cbn [cb_bundle cb_anchor cb_dbc cb_mpc dp_method]. split; [|symmetry; exact Em]. unfold anchored. rewrite Em.
    split; [exact Eb|]. split; [exists ws; auto|]. split; [exact L|].
    exists cid, sw, an. split; [exact E2|]. split; [exact Ew|]. split; [exact Ha|].
    split; [exact Ep|reflexivity]. }
  destruct (b_method b) eqn:Em, (sw_anchors sw) as [t|o|t o] eqn:Ea; cbn in E; try discriminate;
    (eapply Hk; [|reflexivity|exact E]); reflexivity.
Qed.

Lemma client_bundle_no_panic K s bid : client_bundle K s bid <> Panic.
Proof.
  unfold client_bundle. destruct (bundle_info (sk_index s) bid) as [[ws cid]|e|] eqn:Ei; cbn; try discriminate.
  2: { revert Ei. unfold bundle_info, ok_or, rbind. destruct (mget _ _); [destruct (mget _ _)|]; discriminate. }
  unfold of_stash at 1, stash_bundle. destruct (mget bid (st_bundles (sk_stash s))) as [b|] eqn:Eb; cbn; [|discriminate].
  destruct (select_valid_witness (sk_state s) ws) as [w|e|] eqn:Es; cbn; try discriminate.
  2: { destruct (select_no_panic _ _ Es). }
  unfold of_stash, stash_witness. destruct (mget w (st_witnesses (sk_stash s))) as [sw|] eqn:Ew; cbn; [|discriminate].
  destruct (b_method b) eqn:Em, (sw_anchors sw) as [t|o|t o] eqn:Ea; cbn; try discriminate;
    destruct (mk_proof _ _ _ _); cbn; try discriminate; unfold client_bundle_new; rewrite Em; cbn; discriminate.
Qed.

(** ** The loop *)

Section Walk.
Context (H : Hashes) (K : Merkle) (s : Stock) (cid : N).

(** The bundles collected so far are those of the stash. *)
Definition entries_ok (m : omap N ClientBundle) : Prop :=
  msorted m /\ forall bid cb, mget bid m = Some cb -> client_bundle K s bid = Ok cb.

Lemma entries_insert bid cb m : client_bundle K s bid = Ok cb -> entries_ok m -> entries_ok (minsert bid cb m).
Proof.
  intros E [Hs Hm]. split; [apply minsert_sorted, Hs|]. intros b c. rewrite mget_insert.
  destruct (keqb b bid) eqn:Ek; [|apply Hm]. apply keqb_true in Ek. subst b. intros E'. apply Some_inj in E'. congruence.
Qed.

Lemma known_keyed id bid t : sound H s -> known_in s id bid t -> op_id H t = id.
Proof.
  intros Sd (_ & b & Eb & Et). apply (proj1 (go_bundle _ _ (sd_stash _ _ Sd) _ _ Eb)). exact Et.
Qed.

(** Where a transition is found, so is its bundle. *)
Lemma found_bundle id t : sound H s -> transition s id = Ok t ->
  exists bid, known_in s id bid t /\ bundle_id_for_op (sk_index s) (op_id H t) = Ok bid.
Proof.
  intros Sd E. apply transition_ok in E. destruct E as (bid & Hk). exists bid. split; [exact Hk|].
  rewrite (known_keyed _ _ _ Sd Hk). destruct Hk as (Ei & _). unfold bundle_id_for_op.
  unfold states in Ei. rewrite Ei. reflexivity.
Qed.

Lemma walk_step_ok id m ps m' : sound H s -> entries_ok m -> walk_step H K s id m = Ok (ps, m') ->
  exists t bid cb, known_in s id bid t /\ ps = parents t /\ client_bundle K s bid = Ok cb /\
    m' = minsert bid cb m.
Proof.
  intros Sd [Hs Hm]. unfold walk_step.
  destruct (transition s id) as [t|e|] eqn:Et; cbn [rbind]; try discriminate.
  destruct (found_bundle _ _ Sd Et) as (bid & Hk & Eb). rewrite Eb. cbn [of_index rmap_err rbind].
  destruct (client_bundle K s bid) as [cb|e|] eqn:Ec; cbn [rbind]; try discriminate.
  assert (Ee : match mget bid m with Some cb => cb | None => cb end = cb).
  { destruct (mget bid m) as [cb'|] eqn:Em; [|reflexivity]. apply Hm in Em. congruence. }
  rewrite Ee. unfold reveal_transition.
  destruct (forallb _ _); cbn [rbind rmap_err]; [discriminate|].
  assert (Eh : mhas (op_id H t) (b_known (cb_bundle cb)) = true).
  { destruct (client_bundle_ok _ _ _ _ Ec) as (ws & c & w & _ & _ & (Ebb & _) & _).
    rewrite (known_keyed _ _ _ Sd Hk). destruct Hk as (_ & b & Eb' & Et').
    rewrite Ebb in Eb'. apply Some_inj in Eb'. subst b. apply mhas_true. eauto. }
  rewrite Eh. cbn [rbind rmap_err snd]. intros E. apply Ok_inj in E. injection E as <- <-.
  exists t, bid, cb. auto.
Qed.

Lemma reached_mono (P Q : N -> Prop) id : (forall x, P x -> Q x) -> reached s cid P id -> reached s cid Q id.
Proof.
  intros HPQ R. induction R as [id Hs Hn|id t i R IH Hk Hi Hn]; [apply reached_start; auto|].
  eapply reached_parent; eauto.
Qed.

(** The histories of the parents of [id] and of the rest make up the history. *)
Lemma reached_unfold id rest t bid x : known_in s id bid t -> id <> cid ->
  (reached s cid (fun y => In y (id :: rest)) x <->
   x = id \/ reached s cid (fun y => In y (rev (parents t) ++ rest)) x).
Proof.
  intros Hk Hn. split.
  - intros R. induction R as [y Hs Hy|y t' i R IH Hk' Hi Hy].
    + destruct Hs as [<-|Hs]; [left; reflexivity|]. right. apply reached_start; [|exact Hy].
      apply in_or_app. right; exact Hs.
    + right. destruct IH as [->|IH].
      * destruct Hk' as (bid' & Hk'). destruct (known_in_fun _ _ _ _ _ _ Hk Hk') as [_ <-].
        apply reached_start; [|exact Hy]. apply in_or_app. left. apply -> in_rev. apply in_map. exact Hi.
      * eapply reached_parent; eauto.
  - intros [->|R]; [apply reached_start; [left; reflexivity|exact Hn]|].
    induction R as [y Hs Hy|y t' i R IH Hk' Hi Hy].
    + apply in_app_or in Hs. destruct Hs as [Hs|Hs].
      * apply in_rev in Hs. unfold parents in Hs. apply in_map_iff in Hs as (i & <- & Hi).
        apply (reached_parent s cid _ id t); [apply reached_start; [left; reflexivity|exact Hn]|exists bid; exact Hk|exact Hi|exact Hy].
      * apply reached_start; [right; exact Hs|exact Hy].
    + eapply reached_parent; eauto.
Qed.

Lemma reached_genesis rest x :
  reached s cid (fun y => In y (cid :: rest)) x <-> reached s cid (fun y => In y rest) x.
Proof.
  split.
  - intros R. induction R as [y [Hs|Hs] Hy|y t' i R IH Hk' Hi Hy]; [congruence|apply reached_start; assumption|].
    eapply reached_parent; eauto.
  - apply reached_mono. intros y Hy. right; exact Hy.
Qed.

Lemma reached_none x : ~ reached s cid (fun y => In y []) x.
Proof. intros R. induction R as [y [] Hy|]; assumption. Qed.

Lemma walk_ok fuel : sound H s -> forall ids m out, entries_ok m -> walk H K s cid fuel ids m = Some (Ok out) ->
  entries_ok out /\
  (forall bid, mhas bid out = true <->
     mhas bid m = true \/ exists id t, reached s cid (fun x => In x ids) id /\ known_in s id bid t) /\
  (forall id, reached s cid (fun x => In x ids) id -> exists t, known_op s id t).
Proof.
  intros Sd. induction fuel as [|n IH]; intros [|id rest] m out Em E; cbn [walk] in E.
  - injection E as <-. split; [exact Em|]. split.
    + intros bid. split; [auto|]. intros [Hb|(id & t & R & _)]; [exact Hb|destruct (reached_none _ R)].
    + intros id R. destruct (reached_none _ R).
  - discriminate.
  - injection E as <-. split; [exact Em|]. split.
    + intros bid. split; [auto|]. intros [Hb|(id & t & R & _)]; [exact Hb|destruct (reached_none _ R)].
    + intros id R. destruct (reached_none _ R).
  - destruct (id =? cid) eqn:Ei.
    + apply N.eqb_eq in Ei. subst id. destruct (IH _ _ _ Em E) as (E1 & E2 & E3). split; [exact E1|]. split.
      * intros bid. rewrite E2. split; (intros [Hb|(id & t & R & Hk)]; [left; exact Hb|]); right; exists id, t;
          (split; [|exact Hk]); apply reached_genesis; exact R.
      * intros id R. apply E3. apply reached_genesis. exact R.
    + apply N.eqb_neq in Ei. destruct (walk_step H K s id m) as [[ps m']|e|] eqn:Ew; try discriminate.
      destruct (walk_step_ok _ _ _ _ Sd Em Ew) as (t & bid0 & cb & Hk & -> & Ec & ->).
      destruct (IH _ _ _ (entries_insert _ _ _ Ec Em) E) as (E1 & E2 & E3). split; [exact E1|]. split.
      * intros bid. rewrite E2. split.
        -- intros [Hb|(id' & t' & R & Hk')].
           ++ apply mhas_true in Hb. destruct Hb as [c Hb]. rewrite mget_insert in Hb. destruct (keqb bid bid0) eqn:Eb.
              ** apply keqb_true in Eb. subst bid0. right. exists id, t. split; [|exact Hk].
                 apply reached_start; [left; reflexivity|exact Ei].
              ** left. apply mhas_true. eauto.
           ++ right. exists id', t'. split; [|exact Hk']. apply (reached_unfold id rest t bid0); auto.
        -- intros [Hb|(id' & t' & R & Hk')].
           ++ left. apply mhas_true in Hb. destruct Hb as [c Hb]. apply mhas_true. rewrite mget_insert.
              destruct (keqb bid bid0); eauto.
           ++ apply (reached_unfold id rest t bid0 _ Hk Ei) in R. destruct R as [->|R]; [|right; eauto].
              destruct (known_in_fun _ _ _ _ _ _ Hk Hk') as [<- _]. left. apply mhas_true.
              rewrite mget_insert_eq. eauto.
      * intros id' R. apply (reached_unfold id rest t bid0 _ Hk Ei) in R. destruct R as [->|R]; [exists t, bid0; exact Hk|auto].
Qed.

Lemma walk_step_no_panic id m : sound H s -> entries_ok m -> walk_step H K s id m <> Panic.
Proof.
  intros Sd [Hs Hm]. unfold walk_step.
  destruct (transition s id) as [t|e|] eqn:Et; cbn [rbind]; try discriminate; [|destruct (transition_no_panic _ _ Et)].
  destruct (found_bundle _ _ Sd Et) as (bid & Hk & Eb). rewrite Eb. cbn [of_index rmap_err rbind].
  destruct (client_bundle K s bid) as [cb|e|] eqn:Ec; cbn [rbind]; try discriminate; [|destruct (client_bundle_no_panic _ _ _ Ec)].
  assert (Ee : match mget bid m with Some cb => cb | None => cb end = cb).
  { destruct (mget bid m) as [cb'|] eqn:Em; [|reflexivity]. apply Hm in Em. congruence. }
  rewrite Ee. unfold reveal_transition. destruct (forallb _ _); cbn [rbind rmap_err]; [discriminate|].
  assert (Eh : mhas (op_id H t) (b_known (cb_bundle cb)) = true).
  { destruct (client_bundle_ok _ _ _ _ Ec) as (ws & c & w & _ & _ & (Ebb & _) & _).
    rewrite (known_keyed _ _ _ Sd Hk). destruct Hk as (_ & b & Eb' & Et').
    rewrite Ebb in Eb'. apply Some_inj in Eb'. subst b. apply mhas_true. eauto. }
  rewrite Eh. cbn [rbind rmap_err]. discriminate.
Qed.

Lemma walk_no_panic fuel : sound H s -> forall ids m, entries_ok m -> walk H K s cid fuel ids m <> Some Panic.
Proof.
  intros Sd. induction fuel as [|n IH]; intros [|id rest] m Em; cbn [walk]; try discriminate.
  destruct (id =? cid); [apply IH, Em|].
  destruct (walk_step H K s id m) as [[ps m']|e|] eqn:Ew; [|discriminate|destruct (walk_step_no_panic _ _ Sd Em Ew)].
  destruct (walk_step_ok _ _ _ _ Sd Em Ew) as (t & bid0 & cb & Hk & -> & Ec & ->).
  apply IH. apply entries_insert; assumption.
Qed.

(** *** Termination *)

(** The top of the stack is done with after [k] rounds. *)
Definition done_with (id : N) : Prop :=
  forall m, exists k, (exists m', forall fuel rest, walk H K s cid (k + fuel) (id :: rest) m = walk H K s cid fuel rest m') \/
                      (exists r, forall fuel rest, walk H K s cid (k + fuel) (id :: rest) m = Some r).

Lemma walk_nil fuel m : walk H K s cid fuel [] m = Some (Ok m).
Proof. destruct fuel; reflexivity. Qed.

Lemma done_list ids : (forall id, In id ids -> done_with id) -> forall m,
  exists k, (exists m', forall fuel rest, walk H K s cid (k + fuel) (ids ++ rest) m = walk H K s cid fuel rest m') \/
            (exists r, forall fuel rest, walk H K s cid (k + fuel) (ids ++ rest) m = Some r).
Proof.
  induction ids as [|id ids IH]; intros Hd m.
  - exists O. left. exists m. reflexivity.
  - destruct (Hd id (or_introl eq_refl) m) as (k & [(m' & E)|(r & E)]).
    + destruct (IH (fun x Hx => Hd x (or_intror Hx)) m') as (k' & [(m2 & E2)|(r & E2)]).
      * exists (k + k')%nat. left. exists m2. intros fuel rest. rewrite <- Nat.add_assoc. cbn [app].
        rewrite E. apply E2.
      * exists (k + k')%nat. right. exists r. intros fuel rest. rewrite <- Nat.add_assoc. cbn [app].
        rewrite E. apply E2.
    + exists k. right. exists r. intros fuel rest. cbn [app]. apply E.
Qed.

Lemma done_all : acyclic s -> forall id, done_with id.
Proof.
  intros (rank & Hr).
  assert (A : forall n id, (rank id < n)%nat -> done_with id).
  { induction n as [|n IH]; intros id Hid; [lia|]. intros m.
    destruct (id =? cid) eqn:Ei.
    { exists 1%nat. left. exists m. intros fuel rest. cbn [Nat.add walk]. rewrite Ei. reflexivity. }
    destruct (walk_step H K s id m) as [[ps m']|e|] eqn:Ew.
    2: { exists 1%nat. right. exists (Err e). intros fuel rest. cbn [Nat.add walk]. rewrite Ei, Ew. reflexivity. }
    2: { exists 1%nat. right. exists Panic. intros fuel rest. cbn [Nat.add walk]. rewrite Ei, Ew. reflexivity. }
    assert (Hp : forall x, In x (rev ps) -> done_with x).
    { intros x Hx. apply in_rev in Hx. apply IH. unfold walk_step in Ew.
      destruct (transition s id) as [t|e|] eqn:Et; cbn [rbind] in Ew; try discriminate.
      apply transition_ok in Et.
      assert (Ep : ps = parents t).
      { revert Ew. destruct (of_index _) as [bid|e|]; cbn [rbind]; try discriminate.
        destruct (client_bundle K s bid) as [cb|e|]; cbn [rbind]; try discriminate.
        destruct (rmap_err _ _) as [c|e|]; cbn [rbind]; try discriminate.
        intros E. apply Ok_inj in E. injection E as <- _. reflexivity. }
      subst ps. unfold parents in Hx. apply in_map_iff in Hx as (i & <- & Hi).
      specialize (Hr id t i Et Hi). lia. }
    destruct (done_list (rev ps) Hp m') as (k & [(m2 & E2)|(r & E2)]).
    - exists (S k). left. exists m2. intros fuel rest. cbn [Nat.add walk]. rewrite Ei, Ew. apply E2.
    - exists (S k). right. exists r. intros fuel rest. cbn [Nat.add walk]. rewrite Ei, Ew. apply E2. }
  intros id. apply (A (S (rank id))). lia.
Qed.

Lemma walk_ends : acyclic s -> forall ids m, exists fuel r, forall more, walk H K s cid (fuel + more) ids m = Some r.
Proof.
  intros Ha ids m. destruct (done_list ids (fun id _ => done_all Ha id) m) as (k & [(m' & E)|(r & E)]).
  - exists k, (Ok m'). intros more. specialize (E more []). rewrite app_nil_r, walk_nil in E. exact E.
  - exists k, r. intros more. specialize (E more []). rewrite app_nil_r in E. exact E.
Qed.

(** More rounds do not change the result. *)
Lemma walk_more fuel : forall more ids m r, walk H K s cid fuel ids m = Some r -> walk H K s cid (fuel + more) ids m = Some r.
Proof.
  induction fuel as [|n IH]; intros more [|id rest] m r E; cbn [walk Nat.add] in *.
  - rewrite walk_nil. exact E.
  - discriminate.
  - exact E.
  - destruct (id =? cid); [apply IH, E|].
    destruct (walk_step H K s id m) as [[ps m']|e|]; [apply IH, E|exact E|exact E].
Qed.
End Walk.

(** ** The outputs to start from *)

Lemma rfold_inv {Er S A} (f : S -> A -> result Er S) (P : list A -> S -> Prop) :
  (forall done s0 x s1, P done s0 -> f s0 x = Ok s1 -> P (done ++ [x]) s1) ->
  forall l done s0 s1, P done s0 -> rfold f s0 l = Ok s1 -> P (done ++ l) s1.
Proof.
  intros Hs. induction l as [|x l IH]; intros done s0 s1 Hp E; cbn [rfold] in E.
  - apply Ok_inj in E. subst s1. rewrite app_nil_r. exact Hp.
  - destruct (f s0 x) as [s2|e|] eqn:Ef; cbn [rbind] in E; try discriminate.
    replace (done ++ x :: l) with ((done ++ [x]) ++ l) by (rewrite <- app_assoc; reflexivity).
    eapply IH; [|exact E]. eapply Hs; eassumption.
Qed.

(** Of the seals at one outpoint the one with opret comes first. *)
Lemma find_seal {V} (m : omap OutSeal V) o p : msorted m -> find (fun p => keqb (os_outpoint (fst p)) o) m = Some p ->
  In p m /\ os_outpoint (fst p) = o /\
  (os_method (fst p) = OpretFirst \/ forall q, In q m -> os_outpoint (fst q) = o -> fst q = fst p).
Proof.
  intros S E. pose proof E as E0. apply find_some in E0. destruct E0 as [Hin Ek]. apply keqb_true in Ek.
  split; [exact Hin|]. split; [exact Ek|].
  destruct (os_method (fst p)) eqn:Em; [left; reflexivity|]. right. intros q Hq Eq.
  destruct (os_method (fst q)) eqn:Emq; [|destruct (fst p), (fst q); unfold os_outpoint in *; simpl in *; congruence].
  - exfalso. revert S E Hq Hin. induction m as [|x m IH]; intros S E Hq Hin; [destruct Hq|].
    cbn [find] in E. inversion_clear S as [|? ? S' Hx].
    destruct (keqb (os_outpoint (fst x)) o) eqn:Ex.
    + apply Some_inj in E. subst x. destruct Hq as [->|Hq]; [congruence|].
      rewrite Forall_forall in Hx. specialize (Hx _ Hq). unfold key_lt in Hx.
      destruct (fst p) as [pl pm pt pv], (fst q) as [ql qm qt qv]. unfold os_outpoint in *. simpl in *. subst pm qm.
      assert (El : pl = ql) by congruence. subst ql. destruct pl; cbv in Hx; discriminate.
    + destruct Hq as [->|Hq]; [rewrite Eq, keqb_refl in Ex; discriminate|].
      destruct Hin as [->|Hin]; [rewrite Ek, keqb_refl in Ex; discriminate|]. exact (IH S' E Hq Hin).
Qed.

Definition first_at (ix : MemIndex) (cid : N) (out : OutSeal) : Prop :=
  os_method out = OpretFirst \/
  forall out' oo', states ix (FOut cid out' oo') -> os_outpoint out' = os_outpoint out -> out' = out.

Lemma by_outputs_exact ix cid outpoints r : wf ix -> opouts_by_outputs ix cid outpoints = Ok r ->
  ssorted r /\ forall oo, In oo r <->
    exists out, In (os_outpoint out) outpoints /\ states ix (FOut cid out oo) /\ first_at ix cid out.
Proof.
  intros W E. unfold opouts_by_outputs in E.
  destruct (mget cid (mi_contracts ix)) as [ci|] eqn:Ec; cbn [ok_or rbind] in E; [|discriminate].
  destruct (wf_ci _ W _ _ Ec) as (_ & Hm & Hne).
  match type of E with rfold ?f _ _ = _ =>
    refine (rfold_inv f (fun done r => ssorted r /\ forall oo, In oo r <->
      exists out, In (os_outpoint out) done /\ states ix (FOut cid out oo) /\ first_at ix cid out) _ outpoints [] [] r _ E) end.
  - intros done r0 o r1 [S0 P0] E1.
    destruct (find _ _) as [[out os]|] eqn:Ef; cbn [ok_or rbind] in E1; [|discriminate].
    apply Ok_inj in E1. subst r1. cbn [snd]. apply find_seal in Ef; [|exact Hm]. cbn [fst] in Ef. destruct Ef as (Hin & Ek & Hf).
    apply In_mget in Hin; [|exact Hm].
    assert (Ff : first_at ix cid out).
    { destruct Hf as [Hf|Hf]; [left; exact Hf|]. right. intros out' oo' (ci' & os' & Ec' & Eg & _) Eo.
      rewrite Ec in Ec'. apply Some_inj in Ec'. subst ci'. apply mget_In in Eg. apply (Hf _ Eg). cbn [fst]. congruence. }
    split; [apply fold_sinsert_sorted, S0|]. intros oo. rewrite fold_sinsert_In, P0. split.
    + intros [Hoo|(out' & H1 & H2)].
      * exists out. split; [apply in_or_app; right; left; symmetry; exact Ek|]. split; [|exact Ff].
        exists ci, os. split; [exact Ec|]. split; [exact Hin|exact Hoo].
      * exists out'. split; [apply in_or_app; left; exact H1|exact H2].
    + intros (out' & H1 & H2 & H3). apply in_app_or in H1. destruct H1 as [H1|[H1|[]]]; [right; eauto|]. left.
      assert (Eq : out' = out).
      { destruct (Hne _ _ Hin) as [_ Hnil]. destruct os as [|x os]; [congruence|].
        assert (Fo : states ix (FOut cid out x)) by (exists ci, (x :: os); simpl; auto).
        destruct H3 as [M3|M3]; [|symmetry; apply (M3 _ _ Fo); congruence].
        destruct Ff as [M4|M4]; [|apply (M4 _ _ H2); congruence].
        destruct out, out'; unfold os_outpoint in *; simpl in *. congruence. }
      subst out'. destruct H2 as (ci' & os' & Ec' & Eg & Hoo). rewrite Ec in Ec'. apply Some_inj in Ec'. subst ci'.
      rewrite Hin in Eg. apply Some_inj in Eg. subst os'. exact Hoo.
  - split; [apply ssorted_nil|]. intros oo. split; [intros []|intros (out & [] & _)].
Qed.

Lemma start_outs_exact H s cid outputs secret outs : sound H s -> start_outs s cid outputs secret = Ok outs ->
  forall oo, In oo outs <-> found s cid outputs secret oo.
Proof.
  intros Sd. pose proof (sd_index _ _ Sd) as W. unfold start_outs.
  unfold public_opouts. destruct (mget cid (mi_contracts (sk_index s))) as [ci|] eqn:Ec; cbn; [|discriminate].
  destruct (wf_ci _ W _ _ Ec) as (Ep & _). rewrite Ep.
  destruct (opouts_by_outputs _ _ _) as [b|e|] eqn:Eb; cbn; try discriminate.
  destruct (by_outputs_exact _ _ _ _ W Eb) as [_ Hb].
  intros E. apply Ok_inj in E. subst outs. intros oo. rewrite fold_sinsert_In, in_app_iff, Hb.
  rewrite (opouts_by_terminals_spec (sk_index s) _ oo W). unfold found. split.
  - intros [[(out & Ho & Hf & F1)|(x & Hx & Hf)]|[]].
    + left. apply in_map_iff in Ho as (o & Eo & Ho). exists out, o. split; [exact Ho|]. split; [symmetry; exact Eo|].
      split; [exact Hf|]. rewrite Eo. exact F1.
    + right. destruct secret as [y|]; [|destruct Hx]. destruct Hx as [->|[]]. exists x. auto.
  - intros [(out & o & Ho & Eo & Hf & F1)|(x & -> & Hf)]; left.
    + left. exists out. split; [rewrite Eo; apply in_map, Ho|]. split; [exact Hf|]. unfold first_at. rewrite Eo. exact F1.
    + right. exists x. split; [left; reflexivity|exact Hf].
Qed.

Lemma start_outs_sorted H s cid outputs secret outs : sound H s -> start_outs s cid outputs secret = Ok outs -> ssorted outs.
Proof.
  intros Sd. unfold start_outs, public_opouts. destruct (mget cid (mi_contracts (sk_index s))) as [ci|] eqn:Ec; cbn; [|discriminate].
  destruct (wf_ci _ (sd_index _ _ Sd) _ _ Ec) as (Ep & _). rewrite Ep.
  destruct (opouts_by_outputs _ _ _) as [b|e|] eqn:Eb; cbn; try discriminate.
  intros E. apply Ok_inj in E. subst outs. apply fold_sinsert_sorted, ssorted_nil.
Qed.
Lemma start_outs_sound H s cid outputs secret outs : sound H s -> start_outs s cid outputs secret = Ok outs ->
  ssorted outs /\ forall oo, In oo outs -> found s cid outputs secret oo.
Proof. intros Sd E. split; [apply (start_outs_sorted _ _ _ _ _ _ Sd E)|]. intros oo. apply (start_outs_exact H s cid outputs secret outs Sd E). Qed.

(** Where the contract has one seal at each output, all is found. *)
Lemma found_requested s cid outputs secret oo : found s cid outputs secret oo -> requested s cid outputs secret oo.
Proof.
  intros [(out & o & Ho & Eo & Hf & _)|R]; [left|right; exact R]. exists out, o. auto.
Qed.
Lemma requested_found s cid outputs secret oo : one_seal s cid outputs ->
  (requested s cid outputs secret oo <-> found s cid outputs secret oo).
Proof.
  intros Os. split; [|apply found_requested]. intros [(out & o & Ho & Eo & Hf)|R]; [left|right; exact R].
  exists out, o. repeat (split; [assumption|]). right. intros out' oo' Hf' Eo'. symmetry.
  apply (Os out out' oo oo' o Hf Hf' Ho Eo). congruence.
Qed.
Lemma reached_ext s cid (P Q : N -> Prop) id : (forall x, P x -> Q x) -> reached s cid P id -> reached s cid Q id.
Proof. intros E R. induction R as [y Hp Hy|y t i R IH Hk Hi Hy]; [apply reached_start; auto|eapply reached_parent; eauto]. Qed.
Lemma history_found s cid outputs secret id : one_seal s cid outputs ->
  (history_of s cid outputs secret id <-> found_history s cid outputs secret id).
Proof.
  intros Os. split; apply reached_ext; intros x (oo & R & E); exists oo; (split; [|exact E]).
  - apply requested_found; assumption.
  - apply found_requested; assumption.
Qed.

Lemma start_outs_no_panic s cid outputs secret : start_outs s cid outputs secret <> Panic.
Proof.
  unfold start_outs, public_opouts, opouts_by_outputs.
  destruct (mget cid (mi_contracts (sk_index s))) as [ci|] eqn:Ec; cbn; [|discriminate].
  generalize (@nil Opout) at 1. induction (map os_outpoint outputs) as [|o l IH]; intros acc; cbn; [discriminate|].
  destruct (find _ _) as [p|]; cbn; [apply IH|discriminate].
Qed.

(** ** Terminals *)

Lemma add_terminals_ok bid xs m m' : add_terminals bid xs m = Ok m' ->
  (xs = [] /\ m' = m) \/ exists x, xs = [x] /\ mget bid m = None /\ m' = minsert bid x m.
Proof.
  unfold add_terminals. destruct xs as [|x [|y xs]]; cbn [rfold].
  - intros E. apply Ok_inj in E. auto.
  - destruct (mhas bid m) eqn:Eh; cbn [rbind]; [discriminate|]. intros E. apply Ok_inj in E. right.
    exists x. split; [reflexivity|]. split; [apply mhas_false, Eh|symmetry; exact E].
  - destruct (mhas bid m) eqn:Eh; cbn [rbind]; [discriminate|].
    assert (Et : mhas bid (minsert bid x m) = true) by (apply mhas_true; exists x; apply mget_insert_eq).
    rewrite Et. cbn [rbind]. discriminate.
Qed.
Lemma add_terminals_no_panic bid xs m : (length xs <= 1)%nat -> (xs = [] \/ mget bid m = None) ->
  add_terminals bid xs m <> Panic.
Proof.
  unfold add_terminals. destruct xs as [|x [|y xs]]; cbn [rfold length]; [discriminate| |lia].
  intros _ [E|E]; [discriminate|]. apply mhas_false in E. rewrite E. cbn. discriminate.
Qed.

Lemma conceal_seal_spec H a x :
  match a with
  | Confidential s _ | ConfidentialSeal s _ => x = s
  | ConfidentialState s _ | Revealed s _ => x = h_seal H s
  end <-> x = conceal_seal H a.
Proof. destruct a; reflexivity. Qed.

Lemma hits_spec H secret t x : In x (hits H secret t) <-> secret = Some x /\ exists ty no, assigned_to H t ty no x.
Proof.
  unfold hits. destruct secret as [y|]; [|split; [intros []|intros [E _]; discriminate]].
  rewrite filter_In, N.eqb_eq, in_map_iff. split.
  - intros ((a & Ea & Ha) & ->). split; [reflexivity|]. apply in_flat_map in Ha as (ta & Hta & Ha).
    unfold mvals in Hta. apply in_map_iff in Hta as ([ty ta'] & E & Hta). cbn [snd] in E. subst ta'.
    apply In_nth_error in Ha as (no & Hn). exists ty, no, a. split; [exists ta; auto|].
    apply conceal_seal_spec. symmetry; exact Ea.
  - intros (E & ty & no & a & (ta & Hta & Hn) & Ha). injection E as ->. split; [|reflexivity].
    apply conceal_seal_spec in Ha. exists a. split; [symmetry; exact Ha|]. apply in_flat_map.
    exists ta. split; [unfold mvals; apply in_map_iff; exists (ty, ta); auto|eapply nth_error_In; exact Hn].
Qed.

Lemma filter_unique {A} (f : A -> bool) l :
  (forall i j a b, nth_error l i = Some a -> nth_error l j = Some b -> f a = true -> f b = true -> i = j) ->
  (length (filter f l) <= 1)%nat.
Proof.
  induction l as [|a l IH]; intros Hu; cbn [filter length]; [lia|].
  destruct (f a) eqn:Ea; cbn [length].
  - assert (E : filter f l = []); [|rewrite E; cbn; lia].
    destruct (filter f l) as [|b fl] eqn:Ef; [reflexivity|].
    assert (Hb : In b (filter f l)) by (rewrite Ef; left; reflexivity). apply filter_In in Hb as [Hb Fb].
    apply In_nth_error in Hb as (j & Hj). specialize (Hu O (S j) a b eq_refl Hj Ea Fb). discriminate.
  - apply IH. intros i j x y Hi Hj Fx Fy. specialize (Hu (S i) (S j) x y Hi Hj Fx Fy). congruence.
Qed.

Lemma hits_unique H x t : msorted (op_assigns t) ->
  (forall ty no ty' no', assigned_to H t ty no x -> assigned_to H t ty' no' x -> ty = ty' /\ no = no') ->
  (length (hits H (Some x) t) <= 1)%nat.
Proof.
  intros Hs Hu. unfold hits.
  assert (A : forall l : omap N TypedAssigns, msorted l ->
    (forall ty no a ta ty' no' a' ta', In (ty, ta) l -> nth_error (ta_list ta) no = Some a -> x = conceal_seal H a ->
        In (ty', ta') l -> nth_error (ta_list ta') no' = Some a' -> x = conceal_seal H a' -> ty = ty' /\ no = no') ->
    (length (filter (N.eqb x) (map (conceal_seal H) (flat_map ta_list (mvals l)))) <= 1)%nat).
  { clear. induction l as [|[ty ta] l IH]; intros Hs Hu; [cbn; lia|].
    unfold mvals. cbn [map flat_map snd]. rewrite map_app, filter_app, app_length.
    apply msorted_NoDup in Hs as Hd.
    assert (Hs' : msorted l) by (unfold msorted in *; cbn [mkeys map] in Hs; inversion Hs; assumption).
    assert (Hl : (length (filter (N.eqb x) (map (conceal_seal H) (flat_map ta_list (mvals l)))) <= 1)%nat).
    { apply IH; [exact Hs'|]. intros; eapply Hu; try eassumption; right; assumption. }
    assert (Ha : (length (filter (N.eqb x) (map (conceal_seal H) (ta_list ta))) <= 1)%nat).
    { apply filter_unique. intros i j a b Hi Hj Fa Fb. apply N.eqb_eq in Fa, Fb. subst a b.
      rewrite nth_error_map in Hi, Hj.
      destruct (nth_error (ta_list ta) i) as [a|] eqn:Ei; [|discriminate].
      destruct (nth_error (ta_list ta) j) as [b|] eqn:Ej; [|discriminate]. cbn in Hi, Hj.
      apply Some_inj in Hi, Hj.
      eapply (Hu ty i a ta ty j b ta); eauto; left; reflexivity. }
    fold (mvals l).
    destruct (filter (N.eqb x) (map (conceal_seal H) (ta_list ta))) as [|u1 l1] eqn:E1; [cbn [length]; lia|].
    destruct (filter (N.eqb x) (map (conceal_seal H) (flat_map ta_list (mvals l)))) as [|u2 l2] eqn:E2; [cbn [length] in *; lia|].
    exfalso.
    assert (H1 : In u1 (u1 :: l1)) by (left; reflexivity). rewrite <- E1 in H1. apply filter_In in H1 as [H1 F1].
    assert (H2 : In u2 (u2 :: l2)) by (left; reflexivity). rewrite <- E2 in H2. apply filter_In in H2 as [H2 F2].
    apply N.eqb_eq in F1, F2. subst u1 u2.
    apply in_map_iff in H1 as (a & Ea & H1). apply in_map_iff in H2 as (b & Eb & H2).
    apply In_nth_error in H1 as (i & Hi). apply in_flat_map in H2 as (tb & Htb & H2).
    apply In_nth_error in H2 as (j & Hj). unfold mvals in Htb. apply in_map_iff in Htb as ([ty' tb'] & E & Htb).
    cbn [snd] in E. subst tb'.
    destruct (Hu ty i a ta ty' j b tb) as [-> _]; auto; [left; reflexivity|right; exact Htb|].
    unfold mkeys in Hd. cbn [map fst] in Hd. apply NoDup_cons_iff in Hd as [Hd _]. apply Hd.
    apply in_map_iff. exists (ty', tb). auto. }
  apply A; [exact Hs|]. intros ty no a ta ty' no' a' ta' H1 H2 H3 H4 H5 H6. apply Hu.
  - exists a. split; [exists ta; auto|]. apply conceal_seal_spec, H3.
  - exists a'. split; [exists ta'; auto|]. apply conceal_seal_spec, H6.
Qed.

(** ** Collecting *)

Section Collect.
Context (H : Hashes) (K : Merkle) (s : Stock) (cid : N) (secret : option N).

Record collected (done : list Opout) (c : Collected) : Prop := {
  cd_sorted : msorted (cl_transitions c);
  cd_trans : forall id t, mget id (cl_transitions c) = Some t <->
    id <> cid /\ (exists oo, In oo done /\ oo_op oo = id) /\ known_op s id t;
  cd_known : forall oo, In oo done -> oo_op oo <> cid -> exists t, known_op s (oo_op oo) t;
  cd_entries : entries_ok K s (cl_bundles c);
  cd_bundles : forall bid, mhas bid (cl_bundles c) = true <->
    exists oo t, In oo done /\ oo_op oo <> cid /\ known_in s (oo_op oo) bid t;
  cd_tsorted : msorted (cl_terminals c);
  cd_terms : forall bid x, mget bid (cl_terminals c) = Some x <->
    exists oo t, In oo done /\ oo_op oo <> cid /\ known_in s (oo_op oo) bid t /\ In x (hits H secret t)
}.

Lemma collected_empty : collected [] {| cl_transitions := []; cl_terminals := []; cl_bundles := [] |}.
Proof.
  constructor; cbn [cl_transitions cl_terminals cl_bundles].
  - apply msorted_nil.
  - intros id t. split; [discriminate|]. intros (_ & (oo & [] & _) & _).
  - intros oo [].
  - split; [apply msorted_nil|discriminate].
  - intros bid. split; [discriminate|]. intros (oo & t & [] & _).
  - apply msorted_nil.
  - intros bid x. split; [discriminate|]. intros (oo & t & [] & _).
Qed.

Lemma in_snoc {A} (l : list A) x y : In y (l ++ [x]) <-> In y l \/ y = x.
Proof.
  rewrite in_app_iff. split; (intros [I|I]; [left; exact I|right]).
  - destruct I as [->|[]]. reflexivity.
  - left. symmetry; exact I.
Qed.

Lemma start_step_ok done c o c' : sound H s -> collected done c ->
  start_step H K s cid secret c o = Ok c' -> collected (done ++ [o]) c'.
Proof.
  intros Sd C. unfold start_step. destruct (oo_op o =? cid) eqn:Eo.
  { apply N.eqb_eq in Eo. intros E. apply Ok_inj in E. subst c'. destruct C as [C1 C2 C3 C4 C5 C6 C7]. constructor; auto.
    - intros id t. rewrite C2. split; intros (Hn & (oo & Hin & Eid) & Hk); (split; [exact Hn|]); (split; [|exact Hk]).
      + exists oo. rewrite in_snoc. auto.
      + apply in_snoc in Hin. destruct Hin as [Hin| ->]; [eauto|congruence].
    - intros oo Hin Hn. apply in_snoc in Hin. destruct Hin as [Hin| ->]; [auto|congruence].
    - intros bid. rewrite C5. split; intros (oo & t & Hin & Hn & Hk); exists oo, t; (split; [|auto]).
      + rewrite in_snoc. auto.
      + apply in_snoc in Hin. destruct Hin as [Hin| ->]; [exact Hin|congruence].
    - intros bid x. rewrite C7. split; intros (oo & t & Hin & Hn & Hk); exists oo, t; (split; [|auto]).
      + rewrite in_snoc. auto.
      + apply in_snoc in Hin. destruct Hin as [Hin| ->]; [exact Hin|congruence]. }
  apply N.eqb_neq in Eo. destruct (transition s (oo_op o)) as [t|e|] eqn:Et; cbn [rbind]; try discriminate.
  destruct (found_bundle H s _ _ Sd Et) as (bid & Hk & Eb). rewrite Eb. cbn [of_index rmap_err rbind].
  destruct (add_terminals bid (hits H secret t) (cl_terminals c)) as [tm|e|] eqn:Ea; cbn [rbind]; try discriminate.
  destruct C as [C1 C2 C3 C4 C5 C6 C7].
  set (nb := if mhas bid (cl_bundles c) then Ok (cl_bundles c)
             else let! cb := client_bundle K s bid in Ok (minsert bid cb (cl_bundles c))).
  assert (Hnb : forall m, nb = Ok m -> entries_ok K s m /\ forall b, mhas b m = true <-> mhas b (cl_bundles c) = true \/ b = bid).
  { intros m. unfold nb. destruct (mhas bid (cl_bundles c)) eqn:Eh.
    - intros E. apply Ok_inj in E. subst m. split; [exact C4|]. intros b. split; [auto|]. intros [Hb| ->]; assumption.
    - destruct (client_bundle K s bid) as [cb|e|] eqn:Ec; cbn [rbind]; try discriminate.
      intros E. apply Ok_inj in E. subst m. split; [apply entries_insert; assumption|].
      intros b. rewrite !mhas_true. rewrite mget_insert. destruct (keqb b bid) eqn:Ek.
      + apply keqb_true in Ek. split; [auto|]. intros _; eauto.
      + apply keqb_false in Ek. split; [auto|]. intros [Hb|Hb]; [exact Hb|congruence]. }
  destruct nb as [m|e|] eqn:En; cbn [rbind]; try discriminate. destruct (Hnb m eq_refl) as [N1 N2].
  intros E. apply Ok_inj in E. subst c'. constructor; cbn [cl_transitions cl_terminals cl_bundles].
  - apply minsert_sorted, C1.
  - intros id t'. rewrite mget_insert. destruct (keqb id (oo_op o)) eqn:Ek.
    + apply keqb_true in Ek. subst id. split.
      * intros E. apply Some_inj in E. subst t'. split; [exact Eo|]. split; [exists o; rewrite in_snoc; auto|exists bid; exact Hk].
      * intros (_ & _ & (bid' & Hk')). destruct (known_in_fun _ _ _ _ _ _ Hk Hk') as [_ ->]. reflexivity.
    + apply keqb_false in Ek. rewrite C2. split; intros (Hn & (oo & Hin & Eid) & Hk'); (split; [exact Hn|]); (split; [|exact Hk']).
      * exists oo. rewrite in_snoc. auto.
      * apply in_snoc in Hin. destruct Hin as [Hin| ->]; [eauto|congruence].
  - intros oo Hin Hn. apply in_snoc in Hin. destruct Hin as [Hin| ->]; [auto|]. exists t, bid. exact Hk.
  - exact N1.
  - intros b. rewrite N2, C5. split.
    + intros [(oo & t' & Hin & Hn & Hk')| ->]; [exists oo, t'|exists o, t]; rewrite in_snoc; auto.
    + intros (oo & t' & Hin & Hn & Hk'). apply in_snoc in Hin. destruct Hin as [Hin| ->]; [left; eauto|].
      right. destruct (known_in_fun _ _ _ _ _ _ Hk Hk') as [-> _]. reflexivity.
  - apply add_terminals_ok in Ea. destruct Ea as [(_ & ->)|(x & _ & _ & ->)]; [exact C6|apply minsert_sorted, C6].
  - intros b x. apply add_terminals_ok in Ea. destruct Ea as [(Eh & ->)|(y & Eh & En' & ->)].
    + rewrite C7. split.
      * intros (oo & t' & Hin & R). exists oo, t'. rewrite in_snoc. auto.
      * intros (oo & t' & Hin & Hn & Hk' & Hx). apply in_snoc in Hin. destruct Hin as [Hin| ->]; [exists oo, t'; auto|].
        destruct (known_in_fun _ _ _ _ _ _ Hk Hk') as [_ <-]. rewrite Eh in Hx. destruct Hx.
    + rewrite mget_insert. destruct (keqb b bid) eqn:Ek.
      * apply keqb_true in Ek. subst b. split.
        -- intros E. apply Some_inj in E. subst y. exists o, t. rewrite in_snoc, Eh. repeat split; auto; [apply Hk|apply Hk|left; reflexivity].
        -- intros (oo & t' & Hin & Hn & Hk' & Hx). apply in_snoc in Hin. destruct Hin as [Hin| ->].
           ++ exfalso. assert (A : mget bid (cl_terminals c) = Some x) by (apply C7; exists oo, t'; auto). congruence.
           ++ destruct (known_in_fun _ _ _ _ _ _ Hk Hk') as [_ <-]. rewrite Eh in Hx. destruct Hx as [->|[]]. reflexivity.
      * apply keqb_false in Ek. rewrite C7. split.
        -- intros (oo & t' & Hin & R). exists oo, t'. rewrite in_snoc. auto.
        -- intros (oo & t' & Hin & Hn & Hk' & Hx). apply in_snoc in Hin. destruct Hin as [Hin| ->]; [exists oo, t'; auto|].
           destruct (known_in_fun _ _ _ _ _ _ Hk Hk') as [-> _]. congruence.
Qed.

Lemma start_step_no_panic done c o : sound H s -> collected done c ->
  (forall x oo bid t t' ty no ty' no', secret = Some x -> oo = o \/ In oo done -> oo_op oo <> cid -> oo_op o <> cid ->
     known_in s (oo_op o) bid t -> known_in s (oo_op oo) bid t' -> assigned_to H t ty no x -> assigned_to H t' ty' no' x ->
     ~ In oo done /\ ty = ty' /\ no = no') ->
  start_step H K s cid secret c o <> Panic.
Proof.
  intros Sd C Hu. unfold start_step. destruct (oo_op o =? cid) eqn:Eo; [discriminate|]. apply N.eqb_neq in Eo.
  destruct (transition s (oo_op o)) as [t|e|] eqn:Et; cbn [rbind]; [|discriminate|destruct (transition_no_panic _ _ Et)].
  destruct (found_bundle H s _ _ Sd Et) as (bid & Hk & Eb). rewrite Eb. cbn [of_index rmap_err rbind].
  assert (Na : add_terminals bid (hits H secret t) (cl_terminals c) <> Panic).
  { apply add_terminals_no_panic.
    - destruct secret as [x|] eqn:Es; [|cbn; lia]. apply hits_unique.
      + destruct Hk as (_ & b & Eb' & Et'). apply (proj2 (proj2 (go_bundle _ _ (sd_stash _ _ Sd) _ _ Eb')) _ _ Et').
      + intros ty no ty' no' H1 H2. apply (Hu x o bid t t ty no ty' no'); auto.
    - destruct (hits H secret t) as [|y l] eqn:Eh; [left; reflexivity|]. right.
      destruct (mget bid (cl_terminals c)) as [z|] eqn:Ez; [|reflexivity]. exfalso.
      apply (cd_terms _ _ C) in Ez. destruct Ez as (oo & t' & Hin & Hn & Hk' & Hz).
      assert (Hy : In y (hits H secret t)) by (rewrite Eh; left; reflexivity).
      apply hits_spec in Hy as (Es & ty & no & Ay). apply hits_spec in Hz as (Es' & ty' & no' & Az).
      rewrite Es in Es'. injection Es' as ->.
      destruct (Hu z oo bid t t' ty no ty' no') as (Hno & _); auto. }
  destruct (add_terminals _ _ _) as [tm|e|]; [|discriminate|congruence]. cbn [rbind].
  destruct (mhas bid (cl_bundles c)); cbn [rbind]; [discriminate|].
  destruct (client_bundle K s bid) as [cb|e|] eqn:Ec; cbn [rbind]; [discriminate|discriminate|destruct (client_bundle_no_panic _ _ _ Ec)].
Qed.

Lemma collect_ok outputs c : sound H s -> collect H K s cid outputs secret = Ok c ->
  exists outs, start_outs s cid outputs secret = Ok outs /\ collected outs c.
Proof.
  intros Sd. unfold collect. destruct (start_outs s cid outputs secret) as [outs|e|]; cbn [rbind]; try discriminate.
  intros E. exists outs. split; [reflexivity|].
  apply (rfold_inv (start_step H K s cid secret) collected) with (done := []) (l := outs) (2 := collected_empty) in E; [exact E|].
  intros done s0 x s1 C0 E0. eapply start_step_ok; eassumption.
Qed.

Lemma rfold_step_no_panic outs : sound H s -> forall done c, collected done c -> NoDup (done ++ outs) ->
  (forall x oo o bid t t' ty no ty' no', secret = Some x -> In oo (done ++ outs) -> In o outs -> oo_op oo <> cid -> oo_op o <> cid ->
     known_in s (oo_op o) bid t -> known_in s (oo_op oo) bid t' -> assigned_to H t ty no x -> assigned_to H t' ty' no' x ->
     oo = o /\ ty = ty' /\ no = no') ->
  rfold (start_step H K s cid secret) c outs <> Panic.
Proof.
  intros Sd. induction outs as [|o outs IH]; intros done c C Hd Hu; cbn [rfold]; [discriminate|].
  destruct (start_step H K s cid secret c o) as [c'|e|] eqn:Es; cbn [rbind]; [|discriminate|].
  - apply (IH (done ++ [o])); [eapply start_step_ok; eassumption|rewrite <- app_assoc; exact Hd|].
    rewrite <- app_assoc. intros; eapply Hu; try eassumption. right; assumption.
  - intros _. revert Es. apply (start_step_no_panic done); [exact Sd|exact C|].
    intros x oo bid t t' ty no ty' no' E1 E2 E3 E4 E5 E6 E7 E8.
    destruct (Hu x oo o bid t t' ty no ty' no') as (-> & E); auto; try (left; reflexivity).
    { apply in_or_app. destruct E2 as [->|E2]; [right; left; reflexivity|left; exact E2]. }
    split; [|exact E]. intros Hin. apply NoDup_remove_2 in Hd. apply Hd. apply in_or_app. left; exact Hin.
Qed.

Lemma collect_no_panic outputs : sound H s ->
  (forall x, secret = Some x -> one_terminal H s cid outputs x) -> collect H K s cid outputs secret <> Panic.
Proof.
  intros Sd Hu. unfold collect.
  destruct (start_outs s cid outputs secret) as [outs|e|] eqn:Eo; cbn [rbind]; [|discriminate|destruct (start_outs_no_panic _ _ _ _ Eo)].
  destruct (start_outs_sound _ _ _ _ _ _ Sd Eo) as [So Ho].
  apply (rfold_step_no_panic outs Sd [] _ collected_empty); [apply ssorted_NoDup, So|].
  cbn [app]. intros x oo o bid t t' ty no ty' no' E1 E2 E3 E4 E5 E6 E7 E8 E9. apply Ho in E2, E3. rewrite E1 in E2, E3.
  destruct (Hu x E1 bid oo t' ty' no' o t ty no) as (-> & -> & ->); auto.
Qed.
End Collect.

(** ** Bundles by witness *)

Section Group.
Context (H : Hashes) (K : Merkle) (s : Stock).

(** The client bundle [cb] goes to the witness [w]. *)
Definition goes_to (cb : ClientBundle) (w : WitnessId) : Prop :=
  exists bid ws cid, client_bundle K s bid = Ok cb /\ bundle_info (sk_index s) bid = Ok (ws, cid) /\
    select_valid_witness (sk_state s) ws = Ok w.

Lemma goes_to_anchored cb w : goes_to cb w ->
  exists bid, client_bundle K s bid = Ok cb /\ anchored K s bid w (cb_anchor cb) (cb_bundle cb).
Proof.
  intros (bid & ws & cid & Ec & Ei & Es). exists bid. split; [exact Ec|].
  destruct (client_bundle_ok _ _ _ _ Ec) as (ws' & cid' & w' & Ei' & Es' & A & _).
  rewrite Ei in Ei'. apply Ok_inj in Ei'. injection Ei' as <- <-. rewrite Es in Es'. apply Ok_inj in Es'. subst w'. exact A.
Qed.

Record grouped (done : list ClientBundle) (acc : omap WitnessId WitnessBundle) : Prop := {
  gr_sorted : msorted acc;
  gr_witness : forall w wb, mget w acc = Some wb -> wb_id wb = w /\
    exists sw, mget w (st_witnesses (sk_stash s)) = Some sw /\ wb_witness wb = sw_public sw;
  gr_from : forall w wb a b, mget w acc = Some wb -> carries (wb_bundles wb) a b ->
    exists cb, In cb done /\ a = cb_anchor cb /\ b = cb_bundle cb /\ goes_to cb w;
  gr_all : forall cb, In cb done -> exists w wb, mget w acc = Some wb /\ carries (wb_bundles wb) (cb_anchor cb) (cb_bundle cb)
}.

Lemma grouped_empty : grouped [] [].
Proof. constructor; [apply msorted_nil|discriminate|discriminate|intros cb []]. Qed.

Lemma new_same {E} cb : dp_method (cb_dbc cb) = b_method (cb_bundle cb) ->
  @client_bundle_new E (cb_mpc cb) (cb_dbc cb) (cb_bundle cb) = Ok cb.
Proof. intros E0. unfold client_bundle_new. rewrite E0, keqb_refl. destruct cb; reflexivity. Qed.

Lemma into_double_ok wb cb wb' : dp_method (cb_dbc cb) = b_method (cb_bundle cb) -> into_double wb cb = Ok wb' ->
  wb_witness wb' = wb_witness wb /\
  forall a b, carries (wb_bundles wb') a b <-> carries (wb_bundles wb) a b \/ (a = cb_anchor cb /\ b = cb_bundle cb).
Proof.
  intros Em. unfold into_double. rewrite (new_same cb Em).
  destruct (wb_bundles wb) as [t|o|t o]; destruct (dp_method (cb_dbc cb)); cbn [rbind]; try discriminate;
    intros E; apply Ok_inj in E; subst wb'; (split; [reflexivity|]); intros a b; cbn [wb_bundles];
    (split; [intros C; inversion C; subst; [| ]; first [left; constructor|right; auto]|]);
    (intros [C|[-> ->]]; [inversion C; subst|]; constructor).
Qed.

Lemma wb_with_ok xw cb wb : dp_method (cb_dbc cb) = b_method (cb_bundle cb) ->
  @wb_with ConsignError xw cb = Ok wb ->
  wb_witness wb = xw /\ forall a b, carries (wb_bundles wb) a b <-> a = cb_anchor cb /\ b = cb_bundle cb.
Proof.
  intros Em. unfold wb_with, anchored_from. rewrite !(new_same cb Em).
  destruct (dp_method (cb_dbc cb)); cbn [rbind rmap]; intros E; apply Ok_inj in E; subst wb; (split; [reflexivity|]);
    intros a b; cbn [wb_bundles]; (split; [intros C; inversion C; subst; auto|]); intros [-> ->]; constructor.
Qed.

Lemma into_double_no_panic wb cb : dp_method (cb_dbc cb) = b_method (cb_bundle cb) -> into_double wb cb <> Panic.
Proof.
  intros Em. unfold into_double. rewrite (new_same cb Em).
  destruct (wb_bundles wb), (dp_method (cb_dbc cb)); cbn; discriminate.
Qed.
Lemma wb_with_no_panic xw cb : dp_method (cb_dbc cb) = b_method (cb_bundle cb) -> @wb_with ConsignError xw cb <> Panic.
Proof.
  intros Em. unfold wb_with, anchored_from. rewrite !(new_same cb Em). destruct (dp_method (cb_dbc cb)); cbn; discriminate.
Qed.

Lemma made_id bid cb : sound H s -> client_bundle K s bid = Ok cb -> bundle_id H (cb_bundle cb) = bid.
Proof.
  intros Sd E. destruct (client_bundle_ok _ _ _ _ E) as (_ & _ & w & _ & _ & (Eb & _) & _).
  apply (fi_bundle _ _ (go_filed _ _ (sd_stash _ _ Sd)) _ _ Eb).
Qed.

Lemma group_step_ok done acc bid cb acc' : sound H s -> client_bundle K s bid = Ok cb -> grouped done acc ->
  group_step K H s acc cb = Ok acc' -> grouped (done ++ [cb]) acc'.
Proof.
  intros Sd Ec G. unfold group_step. rewrite (made_id _ _ Sd Ec).
  destruct (client_bundle_ok _ _ _ _ Ec) as (ws & cid & w & Ei & Es & A & Em). rewrite Ei. cbn [of_index rmap_err rbind fst].
  rewrite Es. cbn [of_state rmap_err rbind]. unfold of_stash, stash_witness.
  destruct (mget w (st_witnesses (sk_stash s))) as [sw|] eqn:Ew; cbn [ok_or rmap_err rbind]; [|discriminate].
  assert (Gt : goes_to cb w) by (exists bid, ws, cid; auto).
  assert (Wi : sw_id sw = w) by (apply (fi_witness _ _ (go_filed _ _ (sd_stash _ _ Sd)) _ _ Ew)).
  destruct G as [G1 G2 G3 G4].
  set (nb := match mget w acc with Some b => rmap_err CsDouble (into_double b cb) | None => wb_with (sw_public sw) cb end).
  assert (Hnb : forall wb, nb = Ok wb -> wb_witness wb = sw_public sw /\
     forall a b, carries (wb_bundles wb) a b <->
       (exists old, mget w acc = Some old /\ carries (wb_bundles old) a b) \/ (a = cb_anchor cb /\ b = cb_bundle cb)).
  { intros wb. unfold nb. destruct (mget w acc) as [old|] eqn:Eo.
    - destruct (into_double old cb) as [wb'|e|] eqn:Ed; cbn; try discriminate. intros E. apply Ok_inj in E. subst wb'.
      destruct (into_double_ok _ _ _ Em Ed) as [D1 D2]. destruct (G2 _ _ Eo) as (_ & sw' & Ew' & D3).
      rewrite Ew in Ew'. apply Some_inj in Ew'. subst sw'. split; [congruence|].
      intros a b. rewrite D2. split; (intros [C|C]; [left|right; exact C]); [eauto|].
      destruct C as (o & Eo' & C). apply Some_inj in Eo'. subst o. exact C.
    - intros E. destruct (wb_with_ok _ _ _ Em E) as [D1 D2]. split; [exact D1|].
      intros a b. rewrite D2. split; [auto|]. intros [(o & Eo' & _)|C]; [discriminate|exact C]. }
  destruct nb as [wb|e|] eqn:En; cbn [rbind]; try discriminate. destruct (Hnb wb eq_refl) as [N1 N2]. clear Hnb.
  intros E. apply Ok_inj in E. subst acc'. constructor.
  - apply minsert_sorted, G1.
  - intros w' wb'. rewrite mget_insert. destruct (keqb w' w) eqn:Ek; [|apply G2]. apply keqb_true in Ek. subst w'.
    intros E. apply Some_inj in E. subst wb'. split; [|exists sw; auto]. unfold wb_id. rewrite N1. exact Wi.
  - intros w' wb' a b. rewrite mget_insert. destruct (keqb w' w) eqn:Ek.
    + apply keqb_true in Ek. subst w'. intros E. apply Some_inj in E. subst wb'. intros C. apply N2 in C.
      destruct C as [(old & Eo & C)|[-> ->]].
      * destruct (G3 _ _ _ _ Eo C) as (cb' & Hin & R). exists cb'. split; [apply in_snoc; auto|exact R].
      * exists cb. split; [apply in_snoc; auto|]. auto.
    + intros E C. destruct (G3 _ _ _ _ E C) as (cb' & Hin & R). exists cb'. split; [apply in_snoc; auto|exact R].
  - intros cb' Hin. apply in_snoc in Hin. destruct Hin as [Hin| ->].
    + destruct (G4 _ Hin) as (w' & wb' & E & C). destruct (keqb w' w) eqn:Ek.
      * apply keqb_true in Ek. subst w'. exists w, wb. split; [apply mget_insert_eq|]. apply N2. left. eauto.
      * exists w', wb'. split; [rewrite mget_insert, Ek; exact E|exact C].
    + exists w, wb. split; [apply mget_insert_eq|]. apply N2. right; auto.
Qed.

Lemma group_step_no_panic done acc bid cb : sound H s -> client_bundle K s bid = Ok cb -> grouped done acc ->
  group_step K H s acc cb <> Panic.
Proof.
  intros Sd Ec G. unfold group_step. rewrite (made_id _ _ Sd Ec).
  destruct (client_bundle_ok _ _ _ _ Ec) as (ws & cid & w & Ei & Es & A & Em). rewrite Ei. cbn [of_index rmap_err rbind fst].
  rewrite Es. cbn [of_state rmap_err rbind]. unfold of_stash, stash_witness.
  destruct (mget w (st_witnesses (sk_stash s))) as [sw|] eqn:Ew; cbn [ok_or rmap_err rbind]; [|discriminate].
  destruct (mget w acc) as [old|].
  - destruct (into_double old cb) eqn:Ed; cbn; [discriminate|discriminate|destruct (into_double_no_panic _ _ Em Ed)].
  - destruct (wb_with (sw_public sw) cb) eqn:Ed; cbn; [discriminate|discriminate|destruct (wb_with_no_panic _ _ Em Ed)].
Qed.

Definition all_made (l : list ClientBundle) : Prop := forall cb, In cb l -> exists bid, client_bundle K s bid = Ok cb.

Lemma group_all l : sound H s -> all_made l -> forall done acc acc', grouped done acc ->
  rfold (group_step K H s) acc l = Ok acc' -> grouped (done ++ l) acc'.
Proof.
  intros Sd. induction l as [|cb l IH]; intros Hm done acc acc' G E; cbn [rfold] in E.
  - apply Ok_inj in E. subst acc'. rewrite app_nil_r. exact G.
  - destruct (group_step K H s acc cb) as [a1|e|] eqn:Eg; cbn [rbind] in E; try discriminate.
    destruct (Hm cb (or_introl eq_refl)) as (bid & Ec).
    replace (done ++ cb :: l) with ((done ++ [cb]) ++ l) by (rewrite <- app_assoc; reflexivity).
    eapply IH; [intros x Hx; apply Hm; right; exact Hx| |exact E]. eapply group_step_ok; eassumption.
Qed.
Lemma group_all_no_panic l : sound H s -> all_made l -> forall done acc, grouped done acc ->
  rfold (group_step K H s) acc l <> Panic.
Proof.
  intros Sd. induction l as [|cb l IH]; intros Hm done acc G; cbn [rfold]; [discriminate|].
  destruct (Hm cb (or_introl eq_refl)) as (bid & Ec).
  destruct (group_step K H s acc cb) as [a1|e|] eqn:Eg; cbn [rbind]; [|discriminate|destruct (group_step_no_panic _ _ _ _ Sd Ec G Eg)].
  eapply (IH (fun x Hx => Hm x (or_intror Hx)) (done ++ [cb])). eapply group_step_ok; eassumption.
Qed.

Lemma entries_made m : entries_ok K s m -> all_made (mvals m).
Proof.
  intros [Hs Hm] cb Hin. apply In_mvals in Hin; [|exact Hs]. destruct Hin as (bid & E). exists bid. apply Hm, E.
Qed.
End Group.

(** ** Definitions *)

Lemma ifaces_of_ok s impls : forall acc ifs, rfold (fun (acc : list (IfaceRec * ImplRec)) (p : N * ImplRec) => let! i := of_stash (iface_by_name s (fst p)) in Ok (acc ++ [(i, snd p)]))
    acc impls = Ok ifs ->
  exists l, ifs = acc ++ l /\ map snd l = mvals impls /\ map (fun p => if_name (fst p)) l = mkeys impls /\
    forall i im, In (i, im) l -> In i (mvals (st_ifaces s)).
Proof.
  induction impls as [|[name im] impls IH]; intros acc ifs E; cbn [rfold] in E.
  - apply Ok_inj in E. subst ifs. exists []. rewrite app_nil_r. repeat split; auto. intros i im [].
  - cbn [fst snd] in E. unfold of_stash at 1, iface_by_name at 1 in E.
    destruct (find _ _) as [i|] eqn:Ef; cbn [ok_or rmap_err rbind] in E; [|discriminate].
    apply find_some in Ef as [Hin En]. apply N.eqb_eq in En.
    destruct (IH _ _ E) as (l & -> & E1 & E2 & E3). exists ((i, im) :: l).
    rewrite <- app_assoc. split; [reflexivity|]. cbn [map snd fst]. split; [|split].
    + unfold mvals in *. cbn [map snd]. rewrite E1. reflexivity.
    + unfold mkeys in *. cbn [map fst]. rewrite E2, En. reflexivity.
    + intros i' im' [E'|Hi]; [injection E' as <- <-; exact Hin|eauto].
Qed.
Lemma ifaces_of_no_panic s impls : forall acc, rfold (fun (acc : list (IfaceRec * ImplRec)) (p : N * ImplRec) => let! i := of_stash (iface_by_name s (fst p)) in Ok (acc ++ [(i, snd p)]))
    acc impls <> Panic.
Proof.
  induction impls as [|[name im] impls IH]; intros acc; cbn [rfold]; [discriminate|].
  unfold of_stash at 1, iface_by_name at 1. destruct (find _ _) as [i|]; cbn [ok_or rmap_err rbind]; [apply IH|discriminate].
Qed.

Lemma pick_ok (f : N -> result ConsignError N) ids m : 
  rfold (fun m id => let! t := f id in Ok (minsert id t m)) [] ids = Ok m ->
  (forall id t, mget id m = Some t <-> In id ids /\ f id = Ok t) /\ (forall id, In id ids -> exists t, f id = Ok t).
Proof.
  intros E.
  match type of E with rfold ?g _ _ = _ =>
    refine (rfold_inv g (fun done m => (forall id t, mget id m = Some t <-> In id done /\ f id = Ok t) /\
      (forall id, In id done -> exists t, f id = Ok t)) _ ids [] [] m _ E) end.
  - intros done m0 id m1 [P1 P2] E1. destruct (f id) as [t|e|] eqn:Ef; cbn [rbind] in E1; try discriminate.
    apply Ok_inj in E1. subst m1. split.
    + intros i t'. rewrite mget_insert, in_snoc. destruct (keqb i id) eqn:Ek.
      * apply keqb_true in Ek. subst i. split; [intros E1; apply Some_inj in E1; subst t'; auto|].
        intros [_ E1]. rewrite Ef in E1. apply Ok_inj in E1. congruence.
      * apply keqb_false in Ek. rewrite P1. split; [intros [I1 I2]; auto|]. intros [[I|I] I2]; [auto|congruence].
    + intros i Hi. apply in_snoc in Hi. destruct Hi as [Hi| ->]; eauto.
  - split; [intros id t; split; [discriminate|intros [[] _]]|intros id []].
Qed.
Lemma pick_no_panic (f : N -> result ConsignError N) ids : (forall id, f id <> Panic) -> forall m,
  rfold (fun m id => let! t := f id in Ok (minsert id t m)) m ids <> Panic.
Proof.
  intros Hf. induction ids as [|id ids IH]; intros m; cbn [rfold]; [discriminate|].
  specialize (Hf id). destruct (f id); cbn [rbind]; [apply IH|discriminate|congruence].
Qed.

Lemma extract_ok s sc ifs r : extract s sc ifs = Ok r ->
  (forall id t, mget id (fst r) = Some t <-> In id (sch_types sc ++ flat_map if_types ifs) /\ mget id (st_types s) = Some t) /\
  (forall id, In id (sch_types sc ++ flat_map if_types ifs) -> exists t, mget id (st_types s) = Some t) /\
  (forall id l, mget id (snd r) = Some l <-> In id (sch_libs sc) /\ mget id (st_libs s) = Some l) /\
  (forall id, In id (sch_libs sc) -> exists l, mget id (st_libs s) = Some l).
Proof.
  unfold extract.
  set (ft := fun id => ok_or (TypeAbsent id) (mget id (st_types s))).
  set (fl := fun id => of_stash (stash_lib s id)).
  assert (Ht : forall id t, ft id = Ok t <-> mget id (st_types s) = Some t).
  { intros id t. unfold ft. destruct (mget id (st_types s)); cbn; split; intros E; try discriminate.
    - apply Ok_inj in E. congruence.
    - apply Some_inj in E. congruence. }
  assert (Hl : forall id t, fl id = Ok t <-> mget id (st_libs s) = Some t).
  { intros id t. unfold fl, of_stash, stash_lib. destruct (mget id (st_libs s)); cbn; split; intros E; try discriminate.
    - apply Ok_inj in E. congruence.
    - apply Some_inj in E. congruence. }
  destruct (@rfold ConsignError _ _ _ _ (sch_types sc ++ _)) as [ty|e|] eqn:E1; cbn [rbind]; try discriminate.
  destruct (@rfold ConsignError _ _ _ _ (sch_libs sc)) as [lb|e|] eqn:E2; cbn [rbind]; try discriminate.
  destruct (len lb <=? U8MAX); [|discriminate]. intros E. apply Ok_inj in E. subst r. cbn [fst snd].
  apply (pick_ok ft) in E1 as [A1 A2]. apply (pick_ok fl) in E2 as [B1 B2]. split; [|split; [|split]].
  - intros id t. rewrite A1, Ht. reflexivity.
  - intros id Hi. destruct (A2 id Hi) as [t Et]. exists t. apply Ht, Et.
  - intros id t. rewrite B1, Hl. reflexivity.
  - intros id Hi. destruct (B2 id Hi) as [t Et]. exists t. apply Hl, Et.
Qed.
Lemma extract_no_panic s sc ifs : extract s sc ifs <> Panic.
Proof.
  unfold extract.
  set (ft := fun id => ok_or (TypeAbsent id) (mget id (st_types s))).
  set (fl := fun id => of_stash (stash_lib s id)).
  destruct (@rfold ConsignError _ _ _ _ (sch_types sc ++ _)) as [ty|e|] eqn:E1; cbn [rbind]; try discriminate.
  2: { exfalso. revert E1. apply (pick_no_panic ft). intros id. unfold ft. destruct (mget _ _); discriminate. }
  destruct (@rfold ConsignError _ _ _ _ (sch_libs sc)) as [lb|e|] eqn:E2; cbn [rbind]; try discriminate.
  2: { exfalso. revert E2. apply (pick_no_panic fl). intros id. unfold fl, of_stash, stash_lib. destruct (mget _ _); discriminate. }
  destruct (len lb <=? U8MAX); discriminate.
Qed.

Lemma add_sigs_get s l : forall m ct x, mget ct (fold_left (fun m c => add_sig s c m) l m) = Some x <->
  (In ct l /\ mget ct (st_sigs s) = Some x) \/ (mget ct m = Some x /\ (In ct l -> mget ct (st_sigs s) = None)).
Proof.
  induction l as [|c l IH]; intros m ct x; cbn [fold_left].
  - split; [intros E; right; split; [exact E|intros []]|]. intros [[[] _]|[E _]]; exact E.
  - rewrite IH. unfold add_sig, sigs_for. cbn [In].
    destruct (mget c (st_sigs s)) as [y|] eqn:Ec.
    + rewrite mget_insert. destruct (keqb ct c) eqn:Ek.
      * apply keqb_true in Ek. subst ct. rewrite Ec. split.
        -- intros [[I E]|[E _]]; left; auto.
        -- intros [[_ E]|[E I]]; [|specialize (I (or_introl eq_refl)); discriminate].
           destruct (in_dec key_dec c l) as [Hd|Hd]; [left; auto|right; split; [exact E|contradiction]].
      * apply keqb_false in Ek. split.
        -- intros [[I E]|[E I]]; [left; auto|right; split; [exact E|]]. intros [I'|I']; [congruence|auto].
        -- intros [[[I|I] E]|[E I]]; [congruence|left; auto|right; split; [exact E|auto]].
    + split.
      * intros [[I E]|[E I]]; [left; auto|right; split; [exact E|]]. intros [<-|I']; auto.
      * intros [[[->|I] E]|[E I]]; [congruence|left; auto|right; split; [exact E|auto]].
Qed.

Lemma add_suppls_get s l : forall m x, In x (fold_left (fun m c => add_suppl s c m) l m) <->
  (exists ct, In ct l /\ first_note s ct x) \/ In x m.
Proof.
  induction l as [|c l IH]; intros m x; cbn [fold_left].
  - split; [auto|]. intros [(ct & [] & _)|I]; exact I.
  - rewrite IH. unfold add_suppl, stash_supplement, first_note.
    destruct (mget c (st_suppl s)) as [[|y more]|] eqn:Ec.
    + split; (intros [(ct & I & (mr & E))|I]; [left; exists ct|auto]).
      * split; [right; exact I|eauto].
      * destruct I as [->|I]; [congruence|eauto].
    + rewrite In_sinsert. split.
      * intros [(ct & I & (mr & E))|[->|I]]; [left; exists ct; split; [right; exact I|eauto]| |auto].
        left. exists c. split; [left; reflexivity|eauto].
      * intros [(ct & [->|I] & (mr & E))|I]; [|left; eauto|auto].
        rewrite Ec in E. injection E as -> _. auto.
    + split; (intros [(ct & I & (mr & E))|I]; [left; exists ct|auto]).
      * split; [right; exact I|eauto].
      * destruct I as [->|I]; [congruence|eauto].
Qed.

Lemma contents_spec cid c ct : In ct (contents_of cid (g_schema (c_genesis c)) (c_ifaces c)) <-> subject_of cid c ct.
Proof.
  unfold contents_of. cbn [In]. rewrite in_flat_map. split.
  - intros [<-|[<-|([i im] & Hin & [<-|[<-|[]]])]]; [constructor|constructor|eapply so_iface; exact Hin|eapply so_impl; exact Hin].
  - intros C. inversion C as [E|E|i im Hin E|i im Hin E]; subst; auto; right; right; exists (i, im); (split; [exact Hin|]); cbn; auto.
Qed.

Section Assemble.
Context (H : Hashes) (K : Merkle) (s : Stock) (transfer : bool) (cid : N).

Lemma assemble_ok terms anchored c : sound H s -> entries_ok K s anchored ->
  assemble H K s transfer cid terms anchored = Ok c ->
  c_transfer c = transfer /\ c_terminals c = terms /\ c_extensions c = [] /\ c_attachments c = [] /\
  defined (sk_stash s) cid c /\
  exists groups, c_bundles c = mvals groups /\ grouped K s (mvals anchored) groups.
Proof.
  intros Sd En. unfold assemble. unfold of_stash at 1, stash_genesis at 1.
  destruct (mget cid (st_geneses (sk_stash s))) as [g|] eqn:Eg; cbn [ok_or rmap_err rbind]; [|discriminate].
  unfold of_stash at 1, stash_schema at 1.
  destruct (mget (g_schema g) (st_schemata (sk_stash s))) as [si|] eqn:Ei; cbn [ok_or rmap_err rbind]; [|discriminate].
  unfold ifaces_of.
  destruct (rfold _ _ (si_impls si)) as [ifs|e|] eqn:Ef; cbn [rbind]; try discriminate.
  apply ifaces_of_ok in Ef. destruct Ef as (l & El & F1 & F2 & F3). cbn [app] in El. subst l.
  destruct (rfold (group_step K H s) [] (mvals anchored)) as [gr|e|] eqn:Er; cbn [rbind]; try discriminate.
  destruct (negb _); [discriminate|]. destruct (negb _); [discriminate|].
  destruct (extract _ _ _) as [ex|e|] eqn:Ee; cbn [rbind]; try discriminate.
  destruct (negb _); [discriminate|]. destruct (negb _); [discriminate|].
  intros E. apply Ok_inj in E.
  assert (Hg : grouped K s (mvals anchored) gr).
  { apply (group_all H K s (mvals anchored) Sd (entries_made _ _ _ En) [] [] gr (grouped_empty _ _)). exact Er. }
  apply extract_ok in Ee. destruct Ee as (X1 & X2 & X3 & X4).
  assert (Hi : forall id, In id (flat_map if_types (map fst ifs)) <-> exists i im, In (i, im) ifs /\ In id (if_types i)).
  { intros id. rewrite in_flat_map. split.
    - intros (i & Hin & Hid). apply in_map_iff in Hin as ([i' im] & <- & Hin). exists i', im. auto.
    - intros (i & im & Hin & Hid). exists i. split; [apply in_map_iff; exists (i, im); auto|exact Hid]. }
  split; [subst c; reflexivity|]. split; [subst c; reflexivity|]. split; [subst c; reflexivity|]. split; [subst c; reflexivity|].
  split; [|exists gr; split; [subst c; reflexivity|exact Hg]].
  assert (Es : forall ct, In ct (contents_of cid (g_schema g) ifs) <-> subject_of cid c ct).
  { intros ct. rewrite <- contents_spec. subst c. reflexivity. }
  constructor.
  - subst c. exact Eg.
  - exists si. subst c. auto.
  - subst c. exact F3.
  - intros id Hid. assert (Hid' : In id (sch_types (si_schema si) ++ flat_map if_types (map fst ifs))).
    { apply in_or_app. rewrite Hi. subst c. exact Hid. }
    destruct (X2 _ Hid') as [t Et]. exists t. split; [exact Et|]. subst c. apply X1. auto.
  - intros id t Hid. assert (Hid' : mget id (fst ex) = Some t) by (subst c; exact Hid). apply X1 in Hid' as [I E'].
    split; [exact E'|]. apply in_app_or in I. rewrite Hi in I. subst c. exact I.
  - intros id Hid. assert (Hid' : In id (sch_libs (si_schema si))) by (subst c; exact Hid).
    destruct (X4 _ Hid') as [t Et]. exists t. split; [exact Et|]. subst c. apply X3. auto.
  - intros id t Hid. assert (Hid' : mget id (snd ex) = Some t) by (subst c; exact Hid). apply X3 in Hid' as [I E'].
    split; [exact E'|]. subst c. exact I.
  - intros ct x. rewrite <- Es. replace (c_signatures c) with (fold_left (fun m c => add_sig (sk_stash s) c m) (contents_of cid (g_schema g) ifs) []) by (subst c; reflexivity).
    rewrite add_sigs_get. split; [intros [[I E']|[E' _]]; [auto|discriminate]|auto].
  - intros x. replace (c_supplements c) with (fold_left (fun m c => add_suppl (sk_stash s) c m) (contents_of cid (g_schema g) ifs) []) by (subst c; reflexivity).
    rewrite add_suppls_get. split.
    + intros [(ct & I & F)|[]]. exists ct. split; [apply Es, I|exact F].
    + intros (ct & I & F). left. exists ct. split; [apply Es, I|exact F].
Qed.

Lemma assemble_no_panic terms anchored : sound H s -> entries_ok K s anchored ->
  assemble H K s transfer cid terms anchored <> Panic.
Proof.
  intros Sd En. unfold assemble. unfold of_stash at 1, stash_genesis at 1.
  destruct (mget cid (st_geneses (sk_stash s))) as [g|] eqn:Eg; cbn [ok_or rmap_err rbind]; [|discriminate].
  unfold of_stash at 1, stash_schema at 1.
  destruct (mget (g_schema g) (st_schemata (sk_stash s))) as [si|] eqn:Ei; cbn [ok_or rmap_err rbind]; [|discriminate].
  unfold ifaces_of.
  destruct (rfold _ _ (si_impls si)) as [ifs|e|] eqn:Ef; cbn [rbind]; try discriminate; [|destruct (ifaces_of_no_panic _ _ _ Ef)].
  destruct (rfold (group_step K H s) [] (mvals anchored)) as [gr|e|] eqn:Er; cbn [rbind]; try discriminate.
  2: { destruct (group_all_no_panic H K s (mvals anchored) Sd (entries_made _ _ _ En) [] [] (grouped_empty _ _) Er). }
  destruct (negb _); [discriminate|]. destruct (negb _); [discriminate|].
  destruct (extract _ _ _) as [ex|e|] eqn:Ee; cbn [rbind]; try discriminate; [|destruct (extract_no_panic _ _ _ Ee)].
  destruct (negb _); [discriminate|]. destruct (negb _); discriminate.
Qed.
End Assemble.

(** ** The whole *)

Section Consign.
Context (H : Hashes) (K : Merkle) (s : Stock) (cid : N) (outputs : list OutSeal) (secret : option N).

Lemma history_split outs co id : sound H s ->
  start_outs s cid outputs secret = Ok outs -> collected H K s cid secret outs co ->
  (found_history s cid outputs secret id <->
   (exists oo, In oo outs /\ oo_op oo = id /\ id <> cid) \/
   reached s cid (fun x => In x (start_ids (cl_transitions co))) id).
Proof.
  intros Sd Eo C. pose proof (start_outs_exact _ _ _ _ _ _ Sd Eo) as Hx.
  assert (Hst : forall x, In x (start_ids (cl_transitions co)) <->
    exists oo t i, In oo outs /\ oo_op oo <> cid /\ known_op s (oo_op oo) t /\ In i (op_inputs t) /\ oo_op i = x).
  { intros x. unfold start_ids. rewrite <- in_rev, in_flat_map. split.
    - intros (t & Ht & Hp). apply In_mvals in Ht; [|apply (cd_sorted _ _ _ _ _ _ _ C)]. destruct Ht as (k & Ht).
      apply (cd_trans _ _ _ _ _ _ _ C) in Ht. destruct Ht as (Hn & (oo & Hin & Ek) & Hk). subst k.
      unfold parents in Hp. apply in_map_iff in Hp as (i & Ei & Hi). exists oo, t, i. auto.
    - intros (oo & t & i & Hin & Hn & Hk & Hi & Ei). exists t. split; [|unfold parents; apply in_map_iff; eauto].
      apply In_mvals; [apply (cd_sorted _ _ _ _ _ _ _ C)|]. exists (oo_op oo). apply (cd_trans _ _ _ _ _ _ _ C).
      split; [exact Hn|]. split; [eauto|exact Hk]. }
  unfold found_history. split.
  - intros R. induction R as [y (oo & Hr & Ey) Hy|y t i R IH Hk Hi Hy].
    + left. exists oo. split; [apply Hx, Hr|auto].
    + right. destruct IH as [(oo & Hin & Ey & Hn)|IH]; [|eapply reached_parent; eauto].
      apply reached_start; [|exact Hy]. apply Hst. exists oo, t, i. subst y. auto.
  - intros [(oo & Hin & Ey & Hn)|R].
    + apply reached_start; [|exact Hn]. exists oo. split; [apply Hx, Hin|exact Ey].
    + induction R as [y Hs Hy|y t i R IH Hk Hi Hy]; [|eapply reached_parent; eauto].
      apply Hst in Hs. destruct Hs as (oo & t & i & Hin & Hn & Hk & Hi & <-).
      eapply reached_parent; [|exact Hk|exact Hi|exact Hy]. apply reached_start; [|exact Hn].
      exists oo. split; [apply Hx, Hin|reflexivity].
Qed.

Lemma consign_ok fuel transfer c : sound H s ->
  consign H K fuel s transfer cid outputs secret = Some (Ok c) ->
  (forall id, found_history s cid outputs secret id -> exists t, known_op s id t) /\
  (forall w a b, holds c w a b -> exists id bid t,
     found_history s cid outputs secret id /\ known_in s id bid t /\ anchored K s bid w a b) /\
  (forall id bid t, found_history s cid outputs secret id -> known_in s id bid t ->
     exists w a b, holds c w a b /\ anchored K s bid w a b) /\
  (forall wb, In wb (c_bundles c) -> exists sw, mget (wb_id wb) (st_witnesses (sk_stash s)) = Some sw /\ wb_witness wb = sw_public sw) /\
  (forall bid x, mget bid (c_terminals c) = Some x <-> secret = Some x /\
     exists oo t ty no, found s cid outputs secret oo /\ oo_op oo <> cid /\ known_in s (oo_op oo) bid t /\ assigned_to H t ty no x) /\
  c_transfer c = transfer /\ c_extensions c = [] /\ c_attachments c = [] /\ defined (sk_stash s) cid c.
Proof.
  intros Sd. unfold consign. destruct (collect H K s cid outputs secret) as [co|e|] eqn:Ec; try discriminate.
  destruct (collect_ok _ _ _ _ _ _ _ Sd Ec) as (outs & Eo & C).
  destruct (walk H K s cid fuel (start_ids (cl_transitions co)) (cl_bundles co)) as [[m|e|]|] eqn:Ew; try discriminate.
  intros E. injection E as E.
  destruct (walk_ok H K s cid fuel Sd _ _ _ (cd_entries _ _ _ _ _ _ _ C) Ew) as (W1 & W2 & W3).
  destruct (assemble_ok _ _ _ _ _ _ _ _ Sd W1 E) as (A1 & A2 & A3 & A4 & A5 & gr & A6 & A7).
  pose proof (start_outs_exact _ _ _ _ _ _ Sd Eo) as Hx.
  assert (Hd : forall bid, mhas bid m = true <-> exists id t, found_history s cid outputs secret id /\ known_in s id bid t).
  { intros bid. rewrite W2, (cd_bundles _ _ _ _ _ _ _ C). split.
    - intros [(oo & t & Hin & Hn & Hk)|(id & t & R & Hk)].
      + exists (oo_op oo), t. split; [|exact Hk]. apply (history_split outs co); auto. left. eauto.
      + exists id, t. split; [|exact Hk]. apply (history_split outs co); auto.
    - intros (id & t & R & Hk). apply (history_split outs co) in R; auto. destruct R as [(oo & Hin & <- & Hn)|R]; [left|right]; eauto. }
  assert (Hh : forall w a b, holds c w a b <-> exists wb, mget w gr = Some wb /\ carries (wb_bundles wb) a b).
  { intros w a b. unfold holds. rewrite A6. split.
    - intros (wb & Hin & Ei & Hc). unfold mvals in Hin. apply in_map_iff in Hin as ([w' wb'] & E1 & Hin). cbn [snd] in E1. subst wb'.
      apply In_mget in Hin; [|apply (gr_sorted _ _ _ _ A7)]. destruct (gr_witness _ _ _ _ A7 _ _ Hin) as [E1 _].
      exists wb. split; [congruence|exact Hc].
    - intros (wb & Hin & Hc). exists wb. split; [|split; [apply (gr_witness _ _ _ _ A7 _ _ Hin)|exact Hc]].
      apply mget_In in Hin. unfold mvals. apply in_map_iff. exists (w, wb). auto. }
  split; [|split; [|split; [|split; [|split]]]].
  - intros id R. apply (history_split outs co) in R; auto. destruct R as [(oo & Hin & <- & Hn)|R].
    + apply (cd_known _ _ _ _ _ _ _ C); assumption.
    + apply W3, R.
  - intros w a b Hb. apply Hh in Hb. destruct Hb as (wb & Eg & Hc).
    destruct (gr_from _ _ _ _ A7 _ _ _ _ Eg Hc) as (cb & Hin & -> & -> & Gt).
    apply In_mvals in Hin; [|apply W1]. destruct Hin as (bid & Em).
    assert (Hb : mhas bid m = true) by (apply mhas_true; eauto). apply Hd in Hb. destruct Hb as (id & t & R & Hk).
    exists id, bid, t. split; [exact R|]. split; [exact Hk|].
    destruct (goes_to_anchored _ _ _ _ Gt) as (bid' & Ec' & An). apply W1 in Em.
    rewrite <- (made_id H K s bid cb Sd Em), (made_id H K s bid' cb Sd Ec'). exact An.
  - intros id bid t R Hk. assert (Hb : mhas bid m = true) by (apply Hd; eauto). apply mhas_true in Hb. destruct Hb as (cb & Em).
    assert (Hin : In cb (mvals m)) by (apply In_mvals; [apply W1|eauto]).
    destruct (gr_all _ _ _ _ A7 _ Hin) as (w & wb & Eg & Hc).
    exists w, (cb_anchor cb), (cb_bundle cb). split; [apply Hh; eauto|].
    destruct (gr_from _ _ _ _ A7 _ _ _ _ Eg Hc) as (cb' & Hin' & Ea & Eb & Gt).
    destruct (goes_to_anchored _ _ _ _ Gt) as (bid' & Ec' & An). rewrite Ea, Eb.
    apply W1 in Em. rewrite <- (made_id H K s bid cb Sd Em), Eb, (made_id H K s bid' cb' Sd Ec'). exact An.
  - intros wb Hin. rewrite A6 in Hin. unfold mvals in Hin. apply in_map_iff in Hin as ([w' wb'] & E1 & Hin). cbn [snd] in E1. subst wb'.
    apply In_mget in Hin; [|apply (gr_sorted _ _ _ _ A7)]. destruct (gr_witness _ _ _ _ A7 _ _ Hin) as [<- (sw & E1 & E2)]. eauto.
  - intros bid x. rewrite A2, (cd_terms _ _ _ _ _ _ _ C). split.
    + intros (oo & t & Hin & Hn & Hk & Hh'). apply hits_spec in Hh' as (Es & ty & no & As). split; [exact Es|].
      exists oo, t, ty, no. split; [apply Hx, Hin|auto].
    + intros (Es & oo & t & ty & no & Hr & Hn & Hk & As). exists oo, t. split; [apply Hx, Hr|]. split; [exact Hn|].
      split; [exact Hk|]. apply hits_spec. eauto.
  - auto.
Qed.

Lemma consign_no_panic fuel transfer : sound H s -> (forall x, secret = Some x -> one_terminal H s cid outputs x) ->
  consign H K fuel s transfer cid outputs secret <> Some Panic.
Proof.
  intros Sd Hu. unfold consign.
  destruct (collect H K s cid outputs secret) as [co|e|] eqn:Ec; [|discriminate|destruct (collect_no_panic _ _ _ _ _ _ Sd Hu Ec)].
  destruct (collect_ok _ _ _ _ _ _ _ Sd Ec) as (outs & Eo & C).
  destruct (walk H K s cid fuel (start_ids (cl_transitions co)) (cl_bundles co)) as [[m|e|]|] eqn:Ew; try discriminate.
  - destruct (walk_ok H K s cid fuel Sd _ _ _ (cd_entries _ _ _ _ _ _ _ C) Ew) as (W1 & _).
    intros E. injection E as E. exact (assemble_no_panic _ _ _ _ _ _ _ Sd W1 E).
  - destruct (walk_no_panic H K s cid fuel Sd _ _ (cd_entries _ _ _ _ _ _ _ C) Ew).
Qed.

Lemma consign_ends transfer : acyclic s ->
  exists fuel r, forall more, consign H K (fuel + more) s transfer cid outputs secret = Some r.
Proof.
  intros Ha. unfold consign. destruct (collect H K s cid outputs secret) as [co|e|] eqn:Ec.
  - destruct (walk_ends H K s cid Ha (start_ids (cl_transitions co)) (cl_bundles co)) as (fuel & [m|e|] & E).
    + exists fuel. eexists. intros more. rewrite E. reflexivity.
    + exists fuel. eexists. intros more. rewrite E. reflexivity.
    + exists fuel. eexists. intros more. rewrite E. reflexivity.
  - exists O, (Err e). reflexivity.
  - exists O, Panic. reflexivity.
Qed.

Lemma consign_more fuel more transfer r : consign H K fuel s transfer cid outputs secret = Some r ->
  consign H K (fuel + more) s transfer cid outputs secret = Some r.
Proof.
  unfold consign. destruct (collect H K s cid outputs secret) as [co|e|]; auto.
  destruct (walk H K s cid fuel (start_ids (cl_transitions co)) (cl_bundles co)) as [w|] eqn:Ew; [|discriminate].
  rewrite (walk_more _ _ _ _ _ more _ _ _ Ew). auto.
Qed.
End Consign.
