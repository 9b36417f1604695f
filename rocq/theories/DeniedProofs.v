(** * Proofs about refused exports (C89) *)
From Verif Require Import Base StM Core MergeModel MergeSpec ContainerModel ContainerSpec ContainerProofs.
From Verif Require Import StateModel StateSpec StateProofs StashModel StashSpec StashProofs StashAgain StockModel StockProofs StockAgain.
From Verif Require Import PIndexModel PIndexSpec PIndexProofs ConsignModel ConsignSpec ConsignProofs.
From Verif Require Import TransferProofs ExportSpec ExportProofs DeniedSpec.
Local Open Scope N_scope.

Lemma select_err s ws e : ssorted ws -> select_valid_witness s ws = Err e ->
  match e with
  | AbsentWitness w => In w ws /\ mget w (ms_witnesses s) = None /\
      forall w', In w' ws -> cmp w' w = Lt -> mget w' (ms_witnesses s) = Some Archived
  | AbsentValidWitness => forall w, In w ws -> mget w (ms_witnesses s) = Some Archived
  | _ => False
  end.
Proof.
  unfold ssorted. induction ws as [|w0 ws IH]; intros So; cbn [select_valid_witness].
  - intros E. injection E as <-. intros w [].
  - apply StronglySorted_inv in So as [So Fa]. specialize (IH So). rewrite Forall_forall in Fa.
    unfold is_valid_witness. destruct (mget w0 (ms_witnesses s)) as [ord|] eqn:E0; cbn [ok_or rbind].
    + destruct (ord_valid ord) eqn:Ev; [discriminate|]. intros E. specialize (IH E).
      assert (Ea : ord = Archived) by (destruct ord; try discriminate Ev; reflexivity). subst ord.
      destruct e; try contradiction.
      * destruct IH as (I1 & I2 & I3). split; [right; exact I1|]. split; [exact I2|]. intros w' [<-|Hi] Hl; auto.
      * intros w' [<-|Hi]; auto.
    + intros E. injection E as <-. split; [left; reflexivity|]. split; [exact E0|]. intros w' [<-|Hi] Hlt.
      * rewrite cmp_refl in Hlt. discriminate.
      * specialize (Fa _ Hi). exfalso. pose proof (cmp_lt_trans _ _ _ Fa Hlt) as F. rewrite cmp_refl in F. discriminate.
Qed.

(** ** Operations in the index have a bundle with a contract and a witness *)

Definition indexed (x : MemIndex) : Prop := forall id bid, states x (FOp id bid) ->
  (exists c, states x (FBundle bid c)) /\ exists w, states x (FWitness bid w).
Definition keeps_indexed {A} (m : IM A) : Prop :=
  forall x x' r, m x = (x', r) -> wf x -> indexed x -> wf x' /\ indexed x'.

Lemma keeps_ix_bind {A B} (m : IM A) (k : A -> IM B) : keeps_indexed m -> (forall a, keeps_indexed (k a)) -> keeps_indexed (bind m k).
Proof.
  intros Hm Hk x x' r E W Ix. unfold bind in E. destruct (m x) as [x1 [a|e|]] eqn:Em.
  - destruct (Hm _ _ _ Em W Ix) as [W1 I1]. exact (Hk a _ _ _ E W1 I1).
  - injection E as <- <-. exact (Hm _ _ _ Em W Ix).
  - injection E as <- <-. exact (Hm _ _ _ Em W Ix).
Qed.
Lemma keeps_ix_mfor {A} (g : A -> IM unit) (l : list A) : (forall a, In a l -> keeps_indexed (g a)) -> keeps_indexed (mfor g l).
Proof.
  induction l as [|a l IH]; intros Hg; cbn [mfor].
  - intros x x' r E W Ix. injection E as <- <-. auto.
  - apply keeps_ix_bind; [apply Hg; left; reflexivity|]. intros _. apply IH. intros y Hy. apply Hg. right. exact Hy.
Qed.
Lemma keeps_ix_adds {A} (m : IM A) F G : adds m F G -> (forall id bid, ~ F (FOp id bid)) -> keeps_indexed m.
Proof.
  intros Am Hn x x' r E W Ix. destruct (Am _ _ _ E W) as (W' & S & Kp & _). split; [exact W'|]. intros id bid Ho.
  destruct (S _ Ho) as [Ho'|F']; [|destruct (Hn _ _ F')]. destruct (Ix _ _ Ho') as [(c & B) (w & Wi)].
  split; [exists c|exists w]; apply Kp; auto.
Qed.
Lemma op_announces_no_op cid0 opid w o id bid : ~ op_announces cid0 opid w o (FOp id bid).
Proof. intros (ty & no & a & _ & [(sl & out & _ & _ & F)|(sec & _ & F)]); discriminate F. Qed.

Lemma keeps_ix_bundle H cid0 b w : keeps_indexed (pindex_bundle H cid0 b w).
Proof.
  intros x x' r E W Ix. unfold pindex_bundle, bind at 1 in E.
  assert (K1 : keeps_indexed (register_bundle (bundle_id H b) w cid0)).
  { eapply keeps_ix_adds; [apply adds_register_bundle|]. intros id bid [F|F]; discriminate F. }
  destruct (register_bundle (bundle_id H b) w cid0 x) as [x1 [u|e|]] eqn:E1;
    [|injection E as <- <-; exact (K1 _ _ _ E1 W Ix)|injection E as <- <-; exact (K1 _ _ _ E1 W Ix)].
  destruct (K1 _ _ _ E1 W Ix) as [W1 I1]. destruct (adds_register_bundle _ _ _ _ _ _ E1 W) as (_ & _ & _ & C1).
  assert (B1 : states x1 (FBundle (bundle_id H b) cid0)) by (apply (C1 u eq_refl); right; left; reflexivity).
  assert (B2 : states x1 (FWitness (bundle_id H b) w)) by (apply (C1 u eq_refl); right; right; reflexivity).
  match type of E with mfor ?g _ _ = _ =>
    assert (Am : adds (mfor g (b_known b)) (fun f => exists p, In p (b_known b) /\ (f = FOp (fst p) (bundle_id H b) \/ op_announces cid0 (fst p) (Some w) (snd p) f)) (fun _ => False)) end.
  { eapply adds_ext; [| |apply adds_mfor; intros p _; apply adds_bind; [apply adds_register_operation|intros _; apply adds_op_assigns]].
    - intros f (p & Hp & Hf). exists p. split; [exact Hp|]. destruct Hf as [Hf|Hf]; [left|right]; exact Hf.
    - intros f []. }
  destruct (Am _ _ _ E W1) as (W' & S & Kp & _). split; [exact W'|]. intros id bid Ho. destruct (S _ Ho) as [Ho'|(p & _ & [F|F])].
  - destruct (I1 _ _ Ho') as [(c & B) (w' & Wi)]. split; [exists c|exists w']; apply Kp; auto.
  - injection F as _ ->. split; [exists cid0|exists w]; apply Kp; auto.
  - destruct (op_announces_no_op _ _ _ _ _ _ F).
Qed.

Lemma keeps_ix_call H c : keeps_indexed (index_call H c).
Proof.
  destruct c as [c|cid0 b w]; cbn [index_call]; [|apply keeps_ix_bundle].
  assert (Ko : forall cid0 opid w o, keeps_indexed (index_op_assigns cid0 opid w o)).
  { intros. eapply keeps_ix_adds; [apply adds_op_assigns|]. intros id bid. apply op_announces_no_op. }
  unfold pindex_consignment, pindex_genesis, pindex_extension.
  apply keeps_ix_bind; [eapply keeps_ix_adds; [apply adds_register_contract|intros id bid F; discriminate F]|]. intros _.
  apply keeps_ix_bind; [apply Ko|]. intros _. apply keeps_ix_bind; [apply keeps_ix_mfor; intros; apply Ko|]. intros _.
  apply keeps_ix_mfor. intros wb _. apply keeps_ix_mfor. intros b _. apply keeps_ix_bundle.
Qed.
Lemma calls_indexed H l : forall x, wf x -> indexed x -> indexed (index_calls H l x).
Proof.
  induction l as [|c l IH]; intros x W Ix; [exact Ix|]. cbn [index_calls fold_left].
  destruct (index_call H c x) as [x' r] eqn:E. destruct (keeps_ix_call H c _ _ _ E W Ix) as [W' I']. exact (IH x' W' I').
Qed.
Lemma reachable_indexed {OG : OrdKey GlobalOut} H K s : reachable H K s -> indexed (sk_index s).
Proof.
  intros (l & _ & ->). destruct (after_moved H K l sk_empty) as ((l1 & E & _) & _). rewrite E. apply calls_indexed; [apply wf_empty|].
  intros id bid F. discriminate F.
Qed.

Section Denied.
Context (H : Hashes) (K : Merkle) (s : Stock) (cid : N) (outputs : list OutSeal) (secret : option N).
Context (Ix : indexed (sk_index s)) (So : stash_sorted (sk_stash s)).
Notation hist := (found_history s cid outputs secret).
Notation hbundle := (bundle_of_history s cid outputs secret).
Notation reason := (export_reason K H s cid outputs secret).

Lemma transition_err id e : hist id -> transition s id = Err e -> reason e.
Proof.
  intros Hh. unfold transition, bundle_id_for_op, of_index, of_stash, stash_bundle.
  destruct (mget id (mi_op_bundle (sk_index s))) as [bid|] eqn:Ei; cbn [ok_or rmap_err rbind].
  2: { intros E. injection E as <-. cbn [export_reason]. split; [exact Hh|]. intros bid F. cbn [states] in F. congruence. }
  destruct (mget bid (st_bundles (sk_stash s))) as [b|] eqn:Eb; cbn [ok_or rmap_err rbind].
  2: { intros E. injection E as <-. cbn [export_reason]. split; [exists id; split; [exact Hh|exact Ei]|exact Eb]. }
  destruct (mget id (b_known b)) as [t|] eqn:Et; cbn [ok_or]; [discriminate|].
  intros E. injection E as <-. cbn [export_reason]. split; [exact Hh|]. split; [exact Ei|]. eauto.
Qed.

Lemma witness_err bid ws c e : sound H s -> hbundle bid -> bundle_info (sk_index s) bid = Ok (ws, c) ->
  select_valid_witness (sk_state s) ws = Err e -> reason (CsState e).
Proof.
  intros Sd Hb Ei Es. apply bundle_info_spec in Ei as [E1 E2].
  apply select_err in Es; [|apply (wf_wit _ (sd_index _ _ Sd) _ _ E1)].
  assert (Hw : forall x, In x ws <-> states (sk_index s) (FWitness bid x)).
  { intros x. cbn [states]. split; [eauto|]. intros (ws' & E & Hx). rewrite E1 in E. apply Some_inj in E. subst ws'. exact Hx. }
  destruct e as [|w| | |]; try contradiction; cbn [export_reason]; exists bid; (split; [exact Hb|]).
  - destruct Es as (I1 & I2 & I3). split; [apply Hw, I1|]. split; [exact I2|]. intros w' F. apply I3, Hw, F.
  - intros w F. apply Es, Hw, F.
Qed.

Lemma info_err bid e : hbundle bid -> bundle_info (sk_index s) bid <> Err e.
Proof using Ix.
  intros (id & _ & Ho). destruct (Ix _ _ Ho) as [(c & E2) (w & ws & E1 & _)]. cbn [states] in E2.
  unfold bundle_info. rewrite E1, E2. discriminate.
Qed.

Lemma client_err bid e : sound H s -> hbundle bid -> client_bundle K s bid = Err e -> reason e.
Proof.
  intros Sd Hb. unfold client_bundle.
  destruct (bundle_info (sk_index s) bid) as [[ws c]|e0|] eqn:Ei; cbn [of_index rmap_err rbind fst snd]; [|destruct (info_err _ _ Hb Ei)|discriminate].
  unfold of_stash at 1, stash_bundle. destruct (mget bid (st_bundles (sk_stash s))) as [b|] eqn:Eb; cbn [ok_or rmap_err rbind].
  2: { intros E. injection E as <-. cbn [export_reason]. auto. }
  destruct (select_valid_witness (sk_state s) ws) as [w|e0|] eqn:Es; cbn [of_state rmap_err rbind];
    [|intros E; injection E as <-; exact (witness_err _ _ _ _ Sd Hb Ei Es)|discriminate].
  pose proof (proj1 (chosen_iff s bid ws c w (sd_index _ _ Sd) Ei) Es) as Ch.
  unfold of_stash, stash_witness. destruct (mget w (st_witnesses (sk_stash s))) as [sw|] eqn:Ew; cbn [ok_or rmap_err rbind].
  2: { intros E. injection E as <-. cbn [export_reason]. eauto. }
  apply bundle_info_spec in Ei as [E1 E2].
  assert (Ms : anchor_for sw (b_method b) = None -> reason (BundleMissedInAnchors bid c)).
  { intros Ea. cbn [export_reason]. split; [exact Hb|]. split; [exact E2|]. exists b, w, sw. auto. }
  assert (Hk : forall an m, anchor_for sw (b_method b) = Some an -> b_method b = m ->
     (let! proof := ok_or (WitnessMissesContract w bid c) (mk_proof K (an_root an) (an_known an) c) in
      client_bundle_new proof {| dp_method := m; dp_data := an_dbc an |} b) = Err e -> reason e).
  { intros an m Ea Em. destruct (mk_proof K (an_root an) (an_known an) c) as [pr|] eqn:Ep; cbn [ok_or rbind].
    - unfold client_bundle_new. cbn [dp_method]. rewrite Em, keqb_refl. discriminate.
    - intros E. injection E as <-. cbn [export_reason]. split; [exact Hb|]. split; [exact E2|]. exists b, sw, an. auto. }
  destruct (b_method b) eqn:Em, (sw_anchors sw) as [t|o|t o] eqn:Ea; cbn [rbind fst snd];
    try (intros E; injection E as <-; apply Ms; unfold anchor_for; rewrite Ea; reflexivity);
    (eapply Hk; [unfold anchor_for; rewrite Ea; reflexivity|reflexivity]).
Qed.

Lemma start_err e : sound H s -> start_outs s cid outputs secret = Err e -> reason e.
Proof.
  intros Sd. pose proof (sd_index _ _ Sd) as W. unfold start_outs, public_opouts, opouts_by_outputs.
  destruct (mget cid (mi_contracts (sk_index s))) as [ci|] eqn:Ec; cbn [ok_or rbind rmap rmap_err of_index].
  2: { intros E. injection E as <-. cbn [export_reason]. auto. }
  destruct (wf_ci _ W _ _ Ec) as (_ & Hm & Hne).
  assert (Hf : forall l acc e0, rfold (fun opouts o =>
           let! p := ok_or (OutpointUnknown o cid) (find (fun p : OutSeal * oset Opout => keqb (os_outpoint (fst p)) o) (ci_outs ci)) in
           Ok (fold_left (fun acc x => sinsert x acc) (snd p) opouts)) acc l = Err e0 ->
         exists o, In o l /\ e0 = OutpointUnknown o cid /\ forall p, In p (ci_outs ci) -> os_outpoint (fst p) <> o).
  { induction l as [|o l IH]; intros acc e0; cbn [rfold]; [discriminate|].
    destruct (find _ (ci_outs ci)) as [p|] eqn:Ef; cbn [ok_or rbind].
    - intros E. destruct (IH _ _ E) as (o' & I1 & I2). exists o'. split; [right; exact I1|exact I2].
    - intros E. injection E as <-. exists o. split; [left; reflexivity|]. split; [reflexivity|]. intros p Hp F.
      pose proof (find_none _ _ Ef _ Hp) as Fn. cbn beta in Fn. rewrite F, keqb_refl in Fn. discriminate. }
  match goal with |- context [rfold ?f [] ?l] => destruct (rfold f [] l) as [r|e0|] eqn:Er end; cbn [rmap_err rbind]; try discriminate.
  intros E. injection E as <-. destruct (Hf _ _ _ Er) as (o & Ho & -> & Hn). cbn [export_reason].
  split; [reflexivity|]. split; [exact Ho|]. intros out oo (ci' & os & F1 & F2 & _). rewrite Ec in F1. apply Some_inj in F1. subst ci'.
  apply mget_In in F2. exact (Hn _ F2).
Qed.

Lemma known_hbundle id bid t : hist id -> known_in s id bid t -> hbundle bid.
Proof. intros Hh (Hs & _). exists id. auto. Qed.

Lemma add_no_err bid l m e : add_terminals bid l m <> Err e.
Proof. unfold add_terminals. apply rfold_no_err. intros m0 x _. destruct (mhas bid m0); discriminate. Qed.

Lemma start_step_err c o e : sound H s -> (oo_op o <> cid -> hist (oo_op o)) ->
  start_step H K s cid secret c o = Err e -> reason e.
Proof.
  intros Sd Hh. unfold start_step. destruct (oo_op o =? cid) eqn:Eo; [discriminate|]. apply N.eqb_neq in Eo. specialize (Hh Eo).
  destruct (transition s (oo_op o)) as [t|e0|] eqn:Et; cbn [rbind]; [|intros E; injection E as <-; exact (transition_err _ _ Hh Et)|discriminate].
  destruct (found_bundle H s _ _ Sd Et) as (bid & Hki & Eb). rewrite Eb. cbn [of_index rmap_err rbind].
  destruct (add_terminals _ _ _) as [tm|e'|] eqn:Ea; cbn [rbind]; [|destruct (add_no_err _ _ _ _ Ea)|discriminate].
  destruct (mhas bid (cl_bundles c)); cbn [rbind]; [discriminate|].
  destruct (client_bundle K s bid) as [cb|e0|] eqn:Ec; cbn [rbind]; try discriminate.
  intros E. injection E as <-. exact (client_err _ _ Sd (known_hbundle _ _ _ Hh Hki) Ec).
Qed.

Lemma collect_err e : sound H s -> collect H K s cid outputs secret = Err e -> reason e.
Proof.
  intros Sd. unfold collect. destruct (start_outs s cid outputs secret) as [outs|e0|] eqn:Eo; cbn [rbind];
    [|intros E; injection E as <-; exact (start_err _ Sd Eo)|discriminate].
  pose proof (start_outs_exact _ _ _ _ _ _ Sd Eo) as Hx.
  assert (Hs : forall l c0, (forall o, In o l -> In o outs) -> rfold (start_step H K s cid secret) c0 l = Err e -> reason e).
  { induction l as [|o l IH]; intros c0 Hl; cbn [rfold]; [discriminate|].
    destruct (start_step H K s cid secret c0 o) as [c1|e0|] eqn:Es; cbn [rbind]; [|intros E; injection E as <-|discriminate].
    - apply IH. intros o' Ho. apply Hl. right. exact Ho.
    - refine (start_step_err _ _ _ Sd _ Es). intros Hn. apply reached_start; [|exact Hn]. exists o. split; [|reflexivity].
      apply Hx, Hl. left. reflexivity. }
  apply Hs. auto.
Qed.

Lemma walk_step_err id m e : sound H s -> entries_ok K s m -> hist id -> spent_in_history s cid outputs secret id -> id <> cid ->
  walk_step H K s id m = Err e -> reason e.
Proof.
  intros Sd [Hs Hm] Hh Sp Hn. unfold walk_step.
  destruct (transition s id) as [t|e0|] eqn:Et; cbn [rbind]; [|intros E; injection E as <-; exact (transition_err _ _ Hh Et)|discriminate].
  destruct (found_bundle H s _ _ Sd Et) as (bid & Hki & Eb). rewrite Eb. cbn [of_index rmap_err rbind].
  destruct (client_bundle K s bid) as [cb|e0|] eqn:Ec; cbn [rbind];
    [|intros E; injection E as <-; exact (client_err _ _ Sd (known_hbundle _ _ _ Hh Hki) Ec)|discriminate].
  assert (Ee : match mget bid m with Some cb => cb | None => cb end = cb).
  { destruct (mget bid m) as [cb'|] eqn:Em; [|reflexivity]. apply Hm in Em. congruence. }
  rewrite Ee. pose proof (known_keyed H s _ _ _ Sd Hki) as Ek. unfold reveal_transition. rewrite Ek.
  destruct (client_bundle_ok _ _ _ _ Ec) as (ws & c & w & _ & _ & (Ebb & _) & _).
  destruct (forallb _ _) eqn:Ef; cbn [rbind rmap_err].
  - intros E. injection E as <-. cbn [export_reason]. split; [exact Sp|]. split; [exact Hn|].
    exists bid, t, (cb_bundle cb). split; [exact Hki|]. split; [exact Ebb|]. intros Hin.
    rewrite forallb_forall in Ef. specialize (Ef _ Hin). rewrite N.eqb_refl in Ef. discriminate.
  - destruct Hki as (_ & b & Eb' & Et'). rewrite Ebb in Eb'. apply Some_inj in Eb'. subst b.
    assert (Eh : mhas id (b_known (cb_bundle cb)) = true) by (apply mhas_true; eauto).
    rewrite Eh. cbn [rmap_err rbind]. discriminate.
Qed.

Lemma walk_err fuel : sound H s -> forall ids m e, entries_ok K s m ->
  (forall id, In id ids -> id <> cid -> hist id /\ spent_in_history s cid outputs secret id) ->
  walk H K s cid fuel ids m = Some (Err e) -> reason e.
Proof.
  intros Sd. induction fuel as [|n IH]; intros [|id rest] m e Em Hi; cbn [walk]; try discriminate.
  destruct (id =? cid) eqn:Ei; [apply IH; [exact Em|intros x Hx; apply Hi; right; exact Hx]|]. apply N.eqb_neq in Ei.
  destruct (Hi id (or_introl eq_refl) Ei) as [Hh Sp].
  destruct (walk_step H K s id m) as [[ps m']|e0|] eqn:Ew; [|intros E; injection E as <-; exact (walk_step_err _ _ _ Sd Em Hh Sp Ei Ew)|discriminate].
  destruct (walk_step_ok _ _ _ _ _ _ _ Sd Em Ew) as (t & bid & cb & Hk & -> & Ec & ->).
  apply IH; [apply entries_insert; assumption|]. intros x Hx Hn. apply in_app_or in Hx. destruct Hx as [Hx|Hx]; [|apply Hi; [right; exact Hx|exact Hn]].
  apply in_rev in Hx. unfold parents in Hx. apply in_map_iff in Hx as (i & <- & Hin). split.
  - eapply reached_parent; [exact Hh|exists bid; exact Hk|exact Hin|exact Hn].
  - exists id, t, i. split; [exact Hh|]. split; [exists bid; exact Hk|]. auto.
Qed.

(** ** Bundles by witness *)

Lemma group_step_err done acc bid cb e : sound H s -> client_bundle K s bid = Ok cb -> hbundle bid -> ~ In cb done ->
  grouped K s done acc -> (forall w wb, mget w acc = Some wb -> methods_ok (wb_bundles wb)) ->
  (forall cb', In cb' done -> exists bid', client_bundle K s bid' = Ok cb' /\ hbundle bid') ->
  group_step K H s acc cb = Err e -> reason e.
Proof.
  intros Sd Ec Hb Nin G Mo Hd. unfold group_step. rewrite (made_id _ _ _ _ _ Sd Ec).
  destruct (client_bundle_ok _ _ _ _ Ec) as (ws & c & w & Ei & Es & A & Em). rewrite Ei. cbn [of_index rmap_err rbind fst].
  rewrite Es. cbn [of_state rmap_err rbind].
  pose proof (proj1 (chosen_iff s bid ws c w (sd_index _ _ Sd) Ei) Es) as Ch.
  pose proof A as (Ebb & _). destruct A as (_ & _ & _ & c1 & sw & an & _ & Ew & _).
  unfold of_stash, stash_witness. rewrite Ew. cbn [ok_or rmap_err rbind].
  destruct (mget w acc) as [old|] eqn:Eo.
  2: { destruct (@wb_with ConsignError (sw_public sw) cb) as [wb|e0|] eqn:Ed; cbn [rbind]; try discriminate.
    exfalso. revert Ed. unfold wb_with, anchored_from. rewrite !(new_same cb Em). destruct (dp_method (cb_dbc cb)); cbn; discriminate. }
  destruct (into_double old cb) as [wb|e0|] eqn:Ed; cbn [rmap_err rbind]; try discriminate.
  intros E. injection E as <-. pose proof (gr_witness _ _ _ _ G _ _ Eo) as (Ewb & _). pose proof (Mo _ _ Eo) as Mw.
  assert (Other : forall a b, carries (wb_bundles old) a b -> exists bid', hbundle bid' /\ chosen s bid' w /\
      mget bid' (st_bundles (sk_stash s)) = Some b /\ bid' <> bid).
  { intros a b Ca. destruct (gr_from _ _ _ _ G _ _ _ _ Eo Ca) as (cb' & Hin & -> & -> & Gt).
    destruct (Hd _ Hin) as (bid' & Ec' & Hb'). exists bid'. split; [exact Hb'|].
    split; [apply (goes_chosen H K s bid' cb' w Sd Ec'), Gt|]. split.
    - destruct (client_bundle_ok _ _ _ _ Ec') as (? & ? & ? & _ & _ & (Eb' & _) & _). exact Eb'.
    - intros ->. rewrite Ec in Ec'. apply Ok_inj in Ec'. subst cb'. contradiction. }
  assert (Same : exists a b, carries (wb_bundles old) a b /\ b_method b = b_method (cb_bundle cb)) by (eapply slot_taken; eassumption).
  unfold into_double in Ed. rewrite (new_same cb Em) in Ed.
  destruct (wb_bundles old) as [t|o|t o] eqn:Eab.
  1, 2: (destruct (dp_method (cb_dbc cb)); cbn [rbind] in Ed; try discriminate Ed; injection Ed as <-; cbn [export_reason]; rewrite Ewb;
    destruct Same as (a & b & Ca & Emm); destruct (Other _ _ Ca) as (bid' & O1 & O2 & O3 & O4);
    exists bid', bid, b, (cb_bundle cb); auto 10).
  assert (Ed' : AlreadyDouble (wb_id old) = e0) by (destruct (dp_method (cb_dbc cb)); injection Ed as <-; reflexivity).
  subst e0. cbn [export_reason]. rewrite Ewb.
  destruct (Other (cb_anchor t) (cb_bundle t)) as (bt & T1 & T2 & T3 & T4); [constructor|].
  destruct (Other (cb_anchor o) (cb_bundle o)) as (bo & O1 & O2 & O3 & O4); [apply carries_double_opret|].
  exists [bid; bt; bo]. split; [|split; [reflexivity|]].
  - assert (bt <> bo).
    { intros ->. rewrite T3 in O3. apply Some_inj in O3. cbn in Mw. destruct Mw as [M1 M2]. rewrite O3 in M1. congruence. }
    repeat constructor; cbn [In]; intuition congruence.
  - intros x [<-|[<-|[<-|[]]]]; auto.
Qed.

Lemma group_err l e : sound H s -> NoDup l -> (forall cb, In cb l -> exists bid, client_bundle K s bid = Ok cb /\ hbundle bid) ->
  rfold (group_step K H s) [] l = Err e -> reason e.
Proof.
  intros Sd Nd Hm.
  assert (Gen : forall post done acc, l = done ++ post -> grouped K s done acc -> (forall w wb, mget w acc = Some wb -> methods_ok (wb_bundles wb)) ->
     rfold (group_step K H s) acc post = Err e -> reason e).
  { induction post as [|cb post IH]; intros done acc El G Mo; cbn [rfold]; [discriminate|].
    assert (Hi : In cb l) by (rewrite El; apply in_or_app; right; left; reflexivity).
    destruct (Hm _ Hi) as (bid & Ec & Hb).
    destruct (group_step K H s acc cb) as [acc'|e0|] eqn:Eg; cbn [rbind]; [|intros E; injection E as <-|discriminate].
    - apply (IH (done ++ [cb])); [rewrite <- app_assoc; exact El|eapply group_step_ok; eassumption|].
      apply (group_methods H K s [cb]) with (acc := acc).
      + intros cb' [<-|[]]. destruct (client_bundle_ok _ _ _ _ Ec) as (? & ? & ? & _ & _ & _ & Em). exact Em.
      + exact Mo.
      + cbn [rfold]. rewrite Eg. reflexivity.
    - refine (group_step_err done acc bid cb _ Sd Ec Hb _ G Mo _ Eg).
      + intros Hin. rewrite El in Nd. apply NoDup_remove_2 in Nd. apply Nd, in_or_app. left. exact Hin.
      + intros cb' Hc. apply Hm. rewrite El. apply in_or_app. left. exact Hc. }
  apply (Gen l [] []); [reflexivity|apply grouped_empty|intros w wb F; discriminate F].
Qed.

(** ** Definitions *)

Lemma ifaces_no_err st id si e : filed H st -> stash_sorted st -> mget id (st_schemata st) = Some si ->
  ifaces_of st (si_impls si) <> Err e.
Proof.
  intros F Sr Ei. pose proof (so_impls _ Sr _ _ Ei) as Sm. unfold ifaces_of. apply rfold_no_err. intros acc [name im] Hin. cbn [fst snd].
  apply In_mget in Hin; [|exact Sm]. destruct (fi_impl _ _ F _ _ _ _ Ei Hin) as (_ & i & Em & En).
  unfold of_stash, iface_by_name, stash_ifaces. destruct (find _ _) as [i'|] eqn:Ef; cbn [ok_or rmap_err rbind]; [discriminate|].
  exfalso. apply mget_In in Em. pose proof (find_none _ _ Ef i) as Fn. cbn beta in Fn. rewrite En, N.eqb_refl in Fn.
  discriminate Fn. unfold mvals. apply in_map_iff. exists (im_iface im, i). auto.
Qed.

Lemma pick_err (f : N -> result ConsignError N) ids e : forall m,
  rfold (fun m id => let! t := f id in Ok (minsert id t m)) m ids = Err e -> exists id, In id ids /\ f id = Err e.
Proof.
  induction ids as [|x ids IH]; intros m; cbn [rfold]; [discriminate|].
  destruct (f x) as [t|e0|] eqn:Ef; cbn [rbind]; [|intros E; injection E as <-|discriminate].
  - intros E. destruct (IH _ E) as (id & I1 & I2). exists id. split; [right; exact I1|exact I2].
  - exists x. split; [left; reflexivity|exact Ef].
Qed.

Lemma extract_err st si ifs e : found_ifaces st si ifs ->
  extract st (si_schema si) (map fst ifs) = Err e -> schema_lacks st si e.
Proof.
  intros F2. pose proof (extract_iff st (si_schema si) (map fst ifs)) as Xi. unfold extract in *.
  set (ft := fun id => ok_or (TypeAbsent id) (mget id (st_types st))).
  set (fl := fun id => of_stash (stash_lib st id)).
  destruct (@rfold ConsignError _ _ _ _ (sch_types (si_schema si) ++ _)) as [ty|e0|] eqn:E1; cbn [rbind] in *; try discriminate.
  - destruct (@rfold ConsignError _ _ _ _ (sch_libs (si_schema si))) as [lb|e0|] eqn:E2; cbn [rbind] in *; try discriminate.
    + destruct (len lb <=? U8MAX) eqn:El; [discriminate|]. intros E. injection E as <-. cbn [schema_lacks]. split; [reflexivity|].
      intros Am. assert (Y : exists r : omap N N * omap N N, @Err ConsignError _ (TooManyLibs (sch_id (si_schema si))) = Ok r).
      { apply Xi. split; [|split; [|exact Am]].
        - intros id Hi. destruct (pick_ok ft _ _ E1) as [_ P]. destruct (P _ Hi) as (t & Et). unfold ft in Et. destruct (mget id (st_types st)); discriminate.
        - intros id Hi. destruct (pick_ok fl _ _ E2) as [_ P]. destruct (P _ Hi) as (t & Et). unfold fl, of_stash, stash_lib in Et. destruct (mget id (st_libs st)); discriminate. }
      destruct Y as (r & Y). discriminate.
    + intros E. injection E as <-. destruct (pick_err fl _ _ _ E2) as (id & Hi & Ef). unfold fl, of_stash, stash_lib in Ef.
      destruct (mget id (st_libs st)) eqn:El; cbn in Ef; [discriminate|]. injection Ef as <-. cbn [schema_lacks]. auto.
  - intros E. injection E as <-. destruct (pick_err ft _ _ _ E1) as (id & Hi & Ef). unfold ft in Ef.
    destruct (mget id (st_types st)) eqn:Et; cbn in Ef; [discriminate|]. injection Ef as <-. cbn [schema_lacks]. split; [exact Et|].
    apply in_app_or in Hi. destruct Hi as [Hi|Hi]; [left; exact Hi|right].
    apply in_flat_map in Hi as (i & Hi & Hid). apply in_map_iff in Hi as ([i' im] & <- & Hi). cbn [fst] in Hid.
    assert (Fi : exists p, In p (si_impls si) /\ iface_by_name st (fst p) = Ok i').
    { clear - F2 Hi. unfold found_ifaces in F2. induction F2 as [|p q l1 l2 [Q1 Q2] F2 IH]; [destruct Hi|].
      destruct Hi as [->|Hi]; [exists p; cbn [fst] in Q2; split; [left; reflexivity|exact Q2]|].
      destruct (IH Hi) as (p' & I1 & I2). exists p'. split; [right; exact I1|exact I2]. }
    destruct Fi as ([name im'] & I1 & I2). exists name, i'. split; [|auto]. unfold mkeys. apply in_map_iff. exists (name, im'). auto.
Qed.

Lemma assemble_err transfer co outs anch e : sound H s -> entries_ok K s anch ->
  start_outs s cid outputs secret = Ok outs -> collected H K s cid secret outs co ->
  (forall bid, mhas bid anch = true <-> exists id t, hist id /\ known_in s id bid t) ->
  assemble H K s transfer cid (cl_terminals co) anch = Err e -> reason e.
Proof.
  intros Sd En Eo C Hd. pose proof (entries_made K s anch En) as Hm. unfold assemble.
  unfold of_stash at 1, stash_genesis at 1.
  destruct (mget cid (st_geneses (sk_stash s))) as [g|] eqn:Eg; cbn [ok_or rmap_err rbind].
  2: { intros E. injection E as <-. cbn [export_reason]. auto. }
  unfold of_stash at 1, stash_schema at 1.
  destruct (mget (g_schema g) (st_schemata (sk_stash s))) as [si|] eqn:Ei; cbn [ok_or rmap_err rbind].
  2: { intros E. injection E as <-. cbn [export_reason]. eauto. }
  destruct (ifaces_of (sk_stash s) (si_impls si)) as [ifs|e0|] eqn:Ef; cbn [rbind]; [| |discriminate].
  2: { destruct (ifaces_no_err _ _ _ _ (go_filed _ _ (sd_stash _ _ Sd)) So Ei Ef). }
  assert (F2 : found_ifaces (sk_stash s) si ifs).
  { unfold ifaces_of in Ef. apply ifaces_iff in Ef. destruct Ef as (l & El & F2). cbn [app] in El. subst l. exact F2. }
  destruct (rfold (group_step K H s) [] (mvals anch)) as [gr|e0|] eqn:Er; cbn [rbind]; [| |discriminate].
  2: { intros E. injection E as <-. refine (group_err _ _ Sd (entries_nodup H K s _ Sd En) _ Er).
    intros cb Hi. apply In_mvals in Hi; [|apply En]. destruct Hi as (bid & Eb). exists bid. split; [apply En, Eb|].
    assert (Mh : mhas bid anch = true) by (apply mhas_true; eauto). apply Hd in Mh as (id & t & R & Hk). exact (known_hbundle _ _ _ R Hk). }
  destruct (group_keys H K s _ _ Sd Hm Er) as [Sg Kg].
  destruct (len gr <=? U32MAX) eqn:E1; cbn [negb].
  2: { apply N.leb_gt in E1. intros E. injection E as <-. cbn [export_reason]. intros Am.
    assert (Hg : at_most U32MAX (fun w => exists cb, In cb (mvals anch) /\ goes_to K s cb w) <-> len gr <= U32MAX) by (apply at_most_map; assumption).
    apply N.lt_nge in E1. apply E1, Hg. intros l Nd Hl. apply Am; [exact Nd|]. intros w Hw. destruct (Hl _ Hw) as (cb & Hi & Gt).
    apply In_mvals in Hi; [|apply En]. destruct Hi as (bid & Eb).
    assert (Mh : mhas bid anch = true) by (apply mhas_true; eauto). apply Hd in Mh as (id & t & R & Hk).
    exists id, bid, t. split; [exact R|]. split; [exact Hk|]. apply (goes_chosen H K s bid cb w Sd); [apply En, Eb|exact Gt]. }
  destruct (len (cl_terminals co) <=? U16MAX) eqn:E2; cbn [negb].
  2: { apply N.leb_gt in E2. intros E. injection E as <-. cbn [export_reason]. intros Am. apply N.lt_nge in E2. apply E2.
    pose proof (start_outs_exact _ _ _ _ _ _ Sd Eo) as Hx. revert Am.
    apply at_most_map; [apply (cd_tsorted _ _ _ _ _ _ _ C)|]. intros bid. rewrite mhas_true. split.
    - intros (x & E). apply (cd_terms _ _ _ _ _ _ _ C) in E. destruct E as (oo & t & Hin & Hn & Hk & Hh).
      apply hits_spec in Hh as (Es & ty & no & As). exists x, oo, t, ty, no. split; [exact Es|]. split; [apply Hx, Hin|auto].
    - intros (x & oo & t & ty & no & Es & R & Hn & Hk & As). exists x. apply (cd_terms _ _ _ _ _ _ _ C). exists oo, t.
      split; [apply Hx, R|]. split; [exact Hn|]. split; [exact Hk|]. apply hits_spec. eauto. }
  destruct (extract _ _ _) as [ex|e0|] eqn:Ee; cbn [rbind]; [| |discriminate].
  2: { intros E. injection E as <-. pose proof (extract_err _ _ _ _ F2 Ee) as L.
    assert (Y : exists g si, mget cid (st_geneses (sk_stash s)) = Some g /\ mget (g_schema g) (st_schemata (sk_stash s)) = Some si /\
        schema_lacks (sk_stash s) si e0) by (exists g, si; auto).
    destruct e0 as [e0| | | | | | | | | | | | |]; try contradiction L; cbn [export_reason]; try exact Y.
    destruct e0; try contradiction L; exact Y. }
  set (sigs := fold_left (fun m c => add_sig (sk_stash s) c m) (contents_of cid (g_schema g) ifs) []).
  set (suppl := fold_left (fun m c => add_suppl (sk_stash s) c m) (contents_of cid (g_schema g) ifs) []).
  destruct (len suppl <=? U8MAX) eqn:E3; cbn [negb].
  2: { apply N.leb_gt in E3. intros E. injection E as <-. cbn [export_reason]. exists g, si, ifs.
    split; [exact Eg|]. split; [exact Ei|]. split; [exact F2|]. intros Am. apply N.lt_nge in E3. apply E3. revert Am.
    apply at_most_list; [apply ssorted_NoDup, suppls_sorted, ssorted_nil|]. intros x. unfold suppl. rewrite add_suppls_get. split.
    - intros [(ct & I & F)|[]]. exists ct. rewrite <- contents_iff. auto.
    - intros (ct & I & F). left. exists ct. rewrite contents_iff. auto. }
  destruct (len sigs <=? U8MAX) eqn:E4; cbn [negb]; [discriminate|].
  apply N.leb_gt in E4. intros E. injection E as <-. cbn [export_reason]. exists g, si, ifs.
  split; [exact Eg|]. split; [exact Ei|]. split; [exact F2|]. intros Am. apply N.lt_nge in E4. apply E4. revert Am.
  apply at_most_map; [apply sigs_sorted, msorted_nil|]. intros ct. rewrite mhas_true, <- contents_iff. unfold sigs. split.
  - intros (x & E). apply add_sigs_get in E. destruct E as [[I E]|[E _]]; [|discriminate]. split; [exact I|congruence].
  - intros [I Nn]. destruct (mget ct (st_sigs (sk_stash s))) as [x|] eqn:Ex; [|congruence]. exists x. apply add_sigs_get. auto.
Qed.

Lemma consign_err fuel transfer e : sound H s -> consign H K fuel s transfer cid outputs secret = Some (Err e) -> reason e.
Proof.
  intros Sd. unfold consign. destruct (collect H K s cid outputs secret) as [co|e0|] eqn:Ec;
    [|intros E; injection E as <-; exact (collect_err _ Sd Ec)|discriminate].
  destruct (collect_ok _ _ _ _ _ _ _ Sd Ec) as (outs & Eo & C).
  destruct (walk H K s cid fuel (start_ids (cl_transitions co)) (cl_bundles co)) as [[m|e0|]|] eqn:Ew; try discriminate.
  - destruct (gathered H K s cid outputs secret outs co m fuel Sd Eo C Ew) as [W1 Hd].
    intros E. injection E as E. exact (assemble_err transfer co outs m e Sd W1 Eo C Hd E).
  - intros E. injection E as <-. refine (walk_err fuel Sd _ _ _ (cd_entries _ _ _ _ _ _ _ C) _ Ew). intros id Hi Hn.
    assert (R : reached s cid (fun x => In x (start_ids (cl_transitions co))) id) by (apply reached_start; assumption).
    split; [apply (history_split H K s cid outputs secret outs co); auto|].
    apply (visited H K s cid outputs secret outs co) in R; auto. destruct R as (_ & id' & t & i & R1 & R2 & R3 & R4). exists id', t, i. auto.
Qed.
End Denied.

Lemma kit_err H st schema e : filed H st -> stash_sorted st -> export_schema st schema = Err e -> kit_reason st schema e.
Proof.
  intros Fl So. unfold export_schema. unfold of_stash at 1, stash_schema at 1.
  destruct (mget schema (st_schemata st)) as [si|] eqn:Ei; cbn [ok_or rmap_err rbind].
  2: { intros E. injection E as <-. cbn [kit_reason]. auto. }
  assert (Y : forall e0, schema_lacks st si e0 -> kit_reason st schema e0).
  { intros e0 L. assert (Z : exists si, mget schema (st_schemata st) = Some si /\ schema_lacks st si e0) by eauto.
    destruct e0 as [e0| | | | | | | | | | | | |]; cbn [kit_reason]; try exact Z. destruct e0; try contradiction L; exact Z. }
  destruct (ifaces_of st (si_impls si)) as [ifs|e0|] eqn:Ef; cbn [rbind]; [| |discriminate].
  2: { destruct (ifaces_no_err H _ _ _ _ Fl So Ei Ef). }
  assert (F2 : found_ifaces st si ifs).
  { unfold ifaces_of in Ef. apply ifaces_iff in Ef. destruct Ef as (l & El & F2). cbn [app] in El. subst l. exact F2. }
  destruct (extract _ _ _) as [ex|e0|] eqn:Ee; cbn [rbind]; try discriminate.
  intros E. injection E as <-. apply Y, (extract_err _ _ _ _ F2 Ee).
Qed.
