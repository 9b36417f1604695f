(** * Proofs about what stays exportable: exports *)
From Verif Require Import Base StM Core ContainerModel ContainerSpec ContainerProofs PIndexModel PIndexSpec PIndexProofs.
From Verif Require Import MergeModel MergeSpec MergeProofs StateModel StateSpec StateProofs StashModel StashSpec StashProofs StashAgain StockModel StockAgain StockProofs.
From Verif Require Import SupplySpec SupplyProps LedgerSpec LedgerProofs ConsignModel ConsignSpec ConsignProofs ConsignAccept ReplicaSpec ReplicaProofs.
From Verif Require Import ExportSpec ExportProofs GrowSpec GrowProofs.
Local Open Scope N_scope.

(** ** Operations with one id *)

Section Ops.
Context (H : Hashes) (HC : collision_free H).

Lemma same_slots t t' ty ta : op_id H t = op_id H t' -> In (ty, ta) (op_assigns t) ->
  exists ta', In (ty, ta') (op_assigns t') /\ conceal_typed H ta' = conceal_typed H ta.
Proof.
  intros E Hi. pose proof (same_id_conceal _ _ _ HC E) as Ec. apply (f_equal op_assigns) in Ec. cbn [conceal_op set_assigns op_assigns] in Ec.
  unfold conceal_assigns, mmap in Ec.
  apply (in_map (fun p => (fst p, conceal_typed H (snd p)))) in Hi. rewrite Ec in Hi. apply in_map_iff in Hi as ([ty' ta'] & X & Hi').
  cbn [fst snd] in X. pose proof (f_equal fst X) as X1. pose proof (f_equal snd X) as X2. cbn [fst snd] in X1, X2. subst ty'. exists ta'. auto.
Qed.

Lemma assigned_same t t' ty no x : op_id H t = op_id H t' -> assigned_to H t ty no x -> assigned_to H t' ty no x.
Proof.
  intros E (a & (ta & Hi & Hn) & M). destruct (same_slots t t' ty ta E Hi) as (ta' & Hi' & Ec).
  apply (f_equal ta_list) in Ec. cbn [conceal_typed ta_list] in Ec.
  assert (Q : nth_error (map (conceal H) (ta_list ta')) no = Some (conceal H a)).
  { rewrite Ec. apply map_nth_error, Hn. }
  rewrite nth_error_map in Q. destruct (nth_error (ta_list ta') no) as [a'|] eqn:Ea; [|discriminate]. cbn in Q. apply Some_inj in Q.
  exists a'. split; [exists ta'; auto|]. destruct a, a'; cbn in Q |- *; injection Q; congruence.
Qed.

Lemma merged_no_less t t' : op_wf t' -> merge_op H t' t = Ok t' -> no_less H t t'.
Proof.
  intros W E. destruct (merge_op_shape H HC _ _ _ W E) as (Ei & _). split; [exact Ei|].
  destruct (merge_op_join H t' t (op_binds H HC _ _) Ei W) as (r & Er & J). assert (r = t') by congruence. subst r.
  intros ty no a Ha. pose proof (oj_slots _ _ _ _ J ty no) as S. rewrite Ha in S. destruct (slot t' ty no) as [a'|] eqn:Ea; [|contradiction].
  exists a'. split; [reflexivity|]. destruct S as [Sa [_ M1 _ M2 _]]. unfold same_assignment in Sa. destruct HC as (Hs & Ht & _). split.
  - intros x Ex. destruct (revealed_seal a') as [y|] eqn:Ey; [|destruct (proj1 M1 eq_refl); congruence].
    f_equal. apply Hs. destruct a, a'; cbn in Ex, Ey, Sa; try discriminate; apply Some_inj in Ex, Ey; injection Sa; congruence.
  - intros x Ex. destruct (revealed_state a') as [y|] eqn:Ey; [|destruct (proj1 M2 eq_refl); congruence].
    f_equal. apply Ht. destruct a, a'; cbn in Ex, Ey, Sa; try discriminate; apply Some_inj in Ex, Ey; injection Sa; congruence.
Qed.
End Ops.

(** ** Exports *)

Section Export.
Context (H : Hashes) (HC : collision_free H) (K : Merkle) (s s' : Stock) (cid : N) (outputs : list OutSeal) (secret : option N).
Context (Sd : sound H s) (Sd' : sound H s') (Sp : supported s').
Context (Ki : forall f, states (sk_index s) f -> states (sk_index s') f).
Context (Kb : forall bid b, mget bid (st_bundles (sk_stash s)) = Some b -> holds_all H b (sk_stash s')).
Context (Wl : forall w, live (sk_state s) (Some w) -> live (sk_state s') (Some w)).
Context (St : forall bid w, states (sk_index s') (FWitness bid w) -> mget w (ms_witnesses (sk_state s')) <> None).
Context (Fo : forall oo, found s' cid outputs secret oo <-> found s cid outputs secret oo).
Context (Ow : in_contract s cid outputs secret) (Df : definable (sk_stash s') cid) (Pk : proves_known K).

Lemma stored_id t bid b : sound H t -> mget bid (st_bundles (sk_stash t)) = Some b -> bundle_id H b = bid.
Proof. intros S E. exact (fi_bundle _ _ (go_filed _ _ (sd_stash _ _ S)) _ _ E). Qed.

Lemma bundle_grows bid b : mget bid (st_bundles (sk_stash s)) = Some b -> exists b', mget bid (st_bundles (sk_stash s')) = Some b' /\ covers H b' b /\
  b_method b' = b_method b /\ b_inputs b' = b_inputs b.
Proof.
  intros E. destruct (Kb bid b E) as (b' & E' & Cv & _). rewrite (stored_id s bid b Sd E) in E'. exists b'. split; [exact E'|]. split; [exact Cv|].
  apply (same_method H HC). rewrite (stored_id s' bid b' Sd' E'), (stored_id s bid b Sd E). reflexivity.
Qed.
Lemma known_grows id bid t : known_in s id bid t -> exists t', known_in s' id bid t' /\ merge_op H t' t = Ok t'.
Proof.
  intros (E & b & Eb & Et). destruct (bundle_grows bid b Eb) as (b' & Eb' & Cv & _). destruct (Cv id t Et) as (t' & Et' & M).
  exists t'. split; [|exact M]. split; [apply Ki, E|]. exists b'. auto.
Qed.
Lemma known_back id bid t bid' t' : known_in s id bid t -> known_in s' id bid' t' -> bid' = bid /\ merge_op H t' t = Ok t'.
Proof.
  intros Hk Hk'. destruct (known_grows id bid t Hk) as (u & Hu & M). destruct (known_in_fun s' id bid' t' bid u Hk' Hu) as [-> ->]. auto.
Qed.
Lemma known_id id bid t bid' t' : known_in s id bid t -> known_in s' id bid' t' -> op_id H t' = op_id H t.
Proof. intros Hk Hk'. rewrite (known_keyed H s id bid t Sd Hk), (known_keyed H s' id bid' t' Sd' Hk'). reflexivity. Qed.

Context (Kn : forall id, found_history s cid outputs secret id -> exists t, known_op s id t).

Lemma history_grows id : found_history s' cid outputs secret id <-> found_history s cid outputs secret id.
Proof.
  split.
  - induction 1 as [id (oo & F & E) Ne|id t' i R IH (bid' & Hk') Hi Ne].
    + apply reached_start; [|exact Ne]. exists oo. split; [apply Fo, F|exact E].
    + destruct (Kn id IH) as (t & bid & Hk). apply reached_parent with (id := id) (t := t); [exact IH|exists bid; exact Hk| |exact Ne].
      rewrite <- (same_id_inputs H t' t HC (known_id _ _ _ _ _ Hk Hk')). exact Hi.
  - induction 1 as [id (oo & F & E) Ne|id t i R IH (bid & Hk) Hi Ne].
    + apply reached_start; [|exact Ne]. exists oo. split; [apply Fo, F|exact E].
    + destruct (known_grows id bid t Hk) as (t' & Hk' & _). apply reached_parent with (id := id) (t := t'); [exact IH|exists bid; exact Hk'| |exact Ne].
      rewrite (same_id_inputs H t' t HC (known_id _ _ _ _ _ Hk Hk')). exact Hi.
Qed.

Lemma known_both id bid' t' : found_history s cid outputs secret id -> known_in s' id bid' t' -> exists t, known_in s id bid' t /\ merge_op H t' t = Ok t'.
Proof.
  intros Hf Hk'. destruct (Kn id Hf) as (t & bid & Hk). destruct (known_back _ _ _ _ _ Hk Hk') as [-> M]. eauto.
Qed.

Lemma first_live bid w0 : states (sk_index s') (FWitness bid w0) -> live (sk_state s') (Some w0) -> exists w, chosen s' bid w.
Proof.
  intros F L. assert (F0 := F). destruct F0 as (ws & Ew & Hin). pose proof (proj1 (wf_wit _ (sd_index _ _ Sd') _ _ Ew)) as So.
  assert (Q : exists w, select_valid_witness (sk_state s') ws = Ok w).
  { assert (A : forall w, In w ws -> mget w (ms_witnesses (sk_state s')) <> None) by (intros w Hw; apply (St bid); exists ws; auto).
    clear Ew So F. induction ws as [|x ws IH]; [destruct Hin|]. cbn [select_valid_witness]. unfold is_valid_witness.
    destruct (mget x (ms_witnesses (sk_state s'))) as [o|] eqn:Eo; [|destruct (A x (or_introl eq_refl) Eo)]. cbn [ok_or rbind].
    destruct (ord_valid o) eqn:Ev; [eauto|]. apply IH; [|intros w Hw; apply A; right; exact Hw].
    destruct Hin as [->|Hin]; [|exact Hin]. destruct L as (o' & Eo' & No). rewrite Eo in Eo'. apply Some_inj in Eo'. subst o'. destruct o; cbn in Ev; congruence. }
  destruct Q as (w & Q). apply select_iff in Q; [|exact So]. destruct Q as (Q1 & Q2 & Q3). exists w. split; [exists ws; auto|]. split; [exact Q2|].
  intros w' (ws' & E' & H') Lt'. rewrite Ew in E'. apply Some_inj in E'. subst ws'. exact (Q3 w' H' Lt').
Qed.

Lemma export_grows : exportable H K s cid outputs secret -> exportable H K s' cid outputs secret.
Proof.
  intros X. constructor.
  - pose proof (xp_contract _ _ _ _ _ _ X) as C. destruct (mget cid (mi_contracts (sk_index s))) as [ci|] eqn:E; [|congruence].
    destruct (Ki (PIndexSpec.FContract cid)) as (ci' & ->); [exists ci; exact E|discriminate].
  - intros o Ho. destruct (xp_outputs _ _ _ _ _ _ X o Ho) as (out & oo & E & F). exists out, oo. split; [exact E|apply Ki, F].
  - intros id Hf. apply history_grows in Hf. destruct (Kn id Hf) as (t & bid & Hk). destruct (known_grows id bid t Hk) as (t' & Hk' & _). exists t', bid. exact Hk'.
  - intros id bid t' Hf Hk'. apply history_grows in Hf. destruct (known_both id bid t' Hf Hk') as (t & Hk & _).
    destruct (xp_bundle _ _ _ _ _ _ X id bid t Hf Hk) as (w0 & a0 & b0 & (Fw & Lw & _) & _).
    destruct (first_live bid w0 (Ki _ Fw) (Wl _ Lw)) as (w & Ch). destruct Ch as (Cw & Cl & Ca).
    destruct (sp_witness _ Sp bid w Cw) as (c0 & b & sw & an & P1 & P2 & P3 & P4 & P5).
    destruct (Pk (an_root an) (an_known an) c0) as (pf & Epf); [congruence|].
    exists w, {| ea_mpc := pf; ea_dbc := {| dp_method := b_method b; dp_data := an_dbc an |} |}, b. split; [split; auto|].
    split; [exact P2|]. split; [exact Cw|]. split; [exact Cl|]. exists c0, sw, an. split; [exact P1|]. split; [exact P3|].
    split; [destruct (b_method b); exact P4|]. split; [exact Epf|reflexivity].
  - intros id t' i bid u' b' Hf (bid0 & Hk') Hi Ne Hki' Eb'. apply history_grows in Hf. destruct (known_both id bid0 t' Hf Hk') as (t & Hk & _).
    rewrite (same_id_inputs H t' t HC (known_id _ _ _ _ _ Hk Hk')) in Hi.
    assert (Hf' : found_history s cid outputs secret (oo_op i)) by (apply reached_parent with (id := id) (t := t); [exact Hf|exists bid0; exact Hk|exact Hi|exact Ne]).
    destruct (known_both _ _ _ Hf' Hki') as (u & Hki & _). assert (Hki0 := Hki). destruct Hki0 as (_ & b & Eb & _).
    destruct (bundle_grows bid b Eb) as (b1 & Eb1 & _ & _ & Ei). rewrite Eb' in Eb1. apply Some_inj in Eb1. subst b1. rewrite Ei.
    apply (xp_listed _ _ _ _ _ _ X id t i bid u b Hf); [exists bid0; exact Hk|exact Hi|exact Ne|exact Hki|exact Eb].
  - intros id bid t' id1 bid1 t1' w b b1 Hf Hk' Hf1 Hk1' (Cw & _) (Cw1 & _) Eb Eb1 Em. apply history_grows in Hf. apply history_grows in Hf1.
    destruct (known_both id bid t' Hf Hk') as (t & (Io & _) & _). destruct (known_both id1 bid1 t1' Hf1 Hk1') as (t1 & (Io1 & _) & _).
    pose proof (Ki _ (Ow id bid Hf Io)) as Fb. pose proof (Ki _ (Ow id1 bid1 Hf1 Io1)) as Fb1.
    destruct (sp_witness _ Sp bid w Cw) as (c0 & b0 & sw & an & P1 & P2 & P3 & P4 & P5).
    destruct (sp_witness _ Sp bid1 w Cw1) as (c1 & b2 & sw1 & an1 & Q1 & Q2 & Q3 & Q4 & Q5).
    cbn [states] in Fb, Fb1, P1, Q1. assert (c0 = cid) by congruence. assert (c1 = cid) by congruence. subst c0 c1.
    assert (sw1 = sw) by congruence. subst sw1. assert (b0 = b) by congruence. assert (b2 = b1) by congruence. subst b0 b2. rewrite Em, Q4 in P4. congruence.
  - intros x Ex. pose proof (xp_terminal _ _ _ _ _ _ X x Ex) as OT. unfold one_terminal in *. rewrite <- Ex in OT |- *.
    intros bid oo t' ty no oo1 t1' ty1 no1 F Ne Hk' As F1 Ne1 Hk1' As1. apply Fo in F. apply Fo in F1.
    assert (Hf : found_history s cid outputs secret (oo_op oo)) by (apply reached_start; [exists oo; auto|exact Ne]).
    assert (Hf1 : found_history s cid outputs secret (oo_op oo1)) by (apply reached_start; [exists oo1; auto|exact Ne1]).
    destruct (known_both _ _ _ Hf Hk') as (t & Hk & _). destruct (known_both _ _ _ Hf1 Hk1') as (t1 & Hk1 & _).
    apply (OT bid oo t ty no oo1 t1 ty1 no1 F Ne Hk
      (assigned_same H HC _ _ _ _ _ (known_id _ _ _ _ _ Hk Hk') As) F1 Ne1 Hk1 (assigned_same H HC _ _ _ _ _ (known_id _ _ _ _ _ Hk1 Hk1') As1)).
  - exact Df.
  - intros l Nd Hl. pose proof (sp_room _ Sp) as R. assert (I : incl l (mkeys (st_witnesses (sk_stash s')))).
    { intros w Hw. destruct (Hl w Hw) as (id & bid & t & _ & _ & (Cw & _)). destruct (sp_witness _ Sp bid w Cw) as (c0 & b & sw & an & _ & _ & P & _).
      apply mget_In in P. apply (in_map fst) in P. exact P. }
    pose proof (NoDup_incl_length Nd I) as L. unfold mkeys in L. rewrite map_length in L. unfold len in *. lia.
  - intros l Nd Hl. apply (xp_terminals_fit _ _ _ _ _ _ X l Nd). intros bid Hb. destruct (Hl bid Hb) as (x & oo & t' & ty & no & Ex & F & Ne & Hk' & As).
    apply Fo in F. assert (Hf : found_history s cid outputs secret (oo_op oo)) by (apply reached_start; [exists oo; auto|exact Ne]).
    destruct (known_both _ _ _ Hf Hk') as (t & Hk & _). exists x, oo, t, ty, no. split; [exact Ex|]. split; [exact F|]. split; [exact Ne|]. split; [exact Hk|].
    exact (assigned_same H HC _ _ _ _ _ (known_id _ _ _ _ _ Hk Hk') As).
Qed.

Lemma content_grows fuel fuel' transfer transfer' c c' : consign H K fuel s transfer cid outputs secret = Some (Ok c) ->
  consign H K fuel' s' transfer' cid outputs secret = Some (Ok c') -> shows_as_much H c c'.
Proof.
  intros E E'. destruct (consign_ok H K s cid outputs secret fuel transfer c Sd E) as (_ & P2 & _ & _ & P5 & _ & _ & _ & P9).
  destruct (consign_ok H K s' cid outputs secret fuel' transfer' c' Sd' E') as (_ & _ & Q3 & _ & Q5 & _ & _ & _ & Q9).
  split; [|split].
  - pose proof (fi_genesis _ _ (go_filed _ _ (sd_stash _ _ Sd)) _ _ (df_genesis _ _ _ P9)) as X. pose proof (fi_genesis _ _ (go_filed _ _ (sd_stash _ _ Sd')) _ _ (df_genesis _ _ _ Q9)) as Y.
    unfold contract_id in *. congruence.
  - intros bid x. rewrite P5, Q5. split.
    + intros (Ex & oo & t' & ty & no & F & Ne & Hk' & As). split; [exact Ex|]. apply Fo in F.
      assert (Hf : found_history s cid outputs secret (oo_op oo)) by (apply reached_start; [exists oo; auto|exact Ne]).
      destruct (known_both _ _ _ Hf Hk') as (t & Hk & _). exists oo, t, ty, no. split; [exact F|]. split; [exact Ne|]. split; [exact Hk|].
      exact (assigned_same H HC _ _ _ _ _ (known_id _ _ _ _ _ Hk Hk') As).
    + intros (Ex & oo & t & ty & no & F & Ne & Hk & As). split; [exact Ex|]. apply Fo in F.
      destruct (known_grows _ _ _ Hk) as (t' & Hk' & _). exists oo, t', ty, no. split; [exact F|]. split; [exact Ne|]. split; [exact Hk'|].
      exact (assigned_same H HC _ _ _ _ _ (eq_sym (known_id _ _ _ _ _ Hk Hk')) As).
  - intros w a b Hh. destruct (P2 w a b Hh) as (id & bid & t & Hf & Hk & (Eb & _)). destruct (known_grows id bid t Hk) as (t' & Hk' & _).
    destruct (Q3 id bid t' (proj2 (history_grows id) Hf) Hk') as (w' & a' & b' & Hh' & (Eb' & _)). exists w', a', b'. split; [exact Hh'|].
    split; [rewrite (stored_id s bid b Sd Eb), (stored_id s' bid b' Sd' Eb'); reflexivity|].
    destruct (bundle_grows bid b Eb) as (b1 & Eb1 & Cv & _). rewrite Eb' in Eb1. apply Some_inj in Eb1. subst b1.
    intros id0 u Eu. destruct (Cv id0 u Eu) as (v & Ev & M). exists v. split; [exact Ev|]. apply merged_no_less; [exact HC| |exact M].
    exact (proj2 (proj2 (go_bundle _ _ (sd_stash _ _ Sd') _ _ Eb')) _ _ Ev).
Qed.
End Export.

(** ** For histories of calls *)

Section Histories.
Context {OG : OrdKey GlobalOut} (H : Hashes) (HC : collision_free H) (K : Merkle).

Lemma calls_grow calls more : (forall c, In c (calls ++ more) -> ledger_call_ok H c) -> all_calls_succeed H K sk_empty (calls ++ more) ->
  let s := stock_after H K sk_empty calls in let s' := stock_after H K sk_empty (calls ++ more) in
  sound H s /\ sound H s' /\ (forall f, states (sk_index s) f -> states (sk_index s') f) /\
  (forall bid b, mget bid (st_bundles (sk_stash s)) = Some b -> holds_all H b (sk_stash s')).
Proof.
  intros Hok Su s s'. apply all_calls_app in Su as [Su1 Su2]. fold s in Su2.
  assert (Sd : forall l, (forall c, In c l -> ledger_call_ok H c) -> sound H (stock_after H K sk_empty l)).
  { intros l Hl. apply (reachable_sound H HC K). exists l. split; [intros c Hc; apply Hl, Hc|reflexivity]. }
  assert (S1 : sound H s) by (apply Sd; intros c Hc; apply Hok, in_or_app; auto).
  split; [exact S1|]. split; [exact (Sd _ Hok)|].
  assert (E' : s' = stock_after H K s more) by (unfold s', s, stock_after; rewrite fold_left_app; reflexivity).
  destruct (fed_any H K more s Su2) as (ix & sh & (A1 & B1 & C1) & (A2 & B2 & C2)). rewrite <- E' in B1, B2. split.
  - intros f F. rewrite B1. apply calls_keep_ok; [apply S1|exact A1|exact F].
  - intros bid b Eb. rewrite B2. apply calls_hold; [exact HC| |apply S1| |].
    + exact (go_bundle _ _ (sd_stash _ _ S1) _ _ Eb).
    + intros x Hx. destruct (C2 x Hx) as (c & s0 & Hc & Sx). apply (stash_of_fine H c s0 x); [apply Hok, in_or_app; auto|exact Sx].
    + exists b. split; [rewrite (stored_id H s bid b S1 Eb); exact Eb|]. split; [apply covers_self, (go_bundle _ _ (sd_stash _ _ S1) _ _ Eb)|auto].
Qed.
End Histories.
