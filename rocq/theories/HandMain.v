(** * Proofs about handing over payments: histories *)
From Verif Require Import Base StM Core Ser MergeSpec ContainerModel ContainerSpec PIndexModel PIndexSpec PIndexProofs StateModel StateSpec StateProps.
From Verif Require Import StashModel StashSpec StashAgain StashProps StockModel StockAgain StockProofs StockProps ConsignModel ConsignSpec ConsignProofs ConsignProps TransferProps.
From Verif Require Import SupplySpec SupplyProps LedgerSpec LedgerProofs LedgerProps AgreeProps ReplicaSpec ReplicaProofs ReplicaProps ExportSpec ExportProps IsolationProps.
From Verif Require Import GrowSpec GrowProofs GrowMain FasciaProps HandSpec HandProofs.
Local Open Scope N_scope.

Lemma distinct_eq {A B} (g : A -> B) l x y : NoDup (map g l) -> In x l -> In y l -> g x = g y -> x = y.
Proof.
  induction l as [|z l IH]; intros Nd Hx Hy E; [destruct Hx|]. cbn [map] in Nd. apply NoDup_cons_iff in Nd as [Nz Nd].
  destruct Hx as [->|Hx], Hy as [->|Hy]; [reflexivity| | |apply IH; assumption]; destruct Nz; apply in_map_iff; [exists y|exists x]; auto.
Qed.

Section Recorded.
Context {OG : OrdKey GlobalOut} (H : Hashes) (K : Merkle) (calls : list StockCall) (f : Fascia) (r : Resolver) (cid : N) (prev : list OutSeal).

Context (HC : collision_free H) (Pk : proves_known K) (P : paid H K calls f r cid prev).
Let s := stock_after H K sk_empty calls.
Let s' := stock_after H K sk_empty (calls ++ [SkFascia f r]).

Lemma paid_body : fascia_body H f r s = (s', Ok tt).
Proof.
  pose proof (pa_succeed _ _ _ _ _ _ _ P) as Su. apply all_calls_app in Su as [_ (E & _)]. change (snd (fascia_body H f r s) = Ok tt) in E.
  unfold s', stock_after. rewrite fold_left_app. cbn [fold_left]. change (fold_left _ calls sk_empty) with s.
  change (stock_body H K (SkFascia f r) s) with (fascia_body H f r s). destruct (fascia_body H f r s) as [s1 r1]. cbn in E |- *. congruence.
Qed.

Lemma paid_before x : In x calls -> ledger_call_ok H x.
Proof. intros Hx. apply (pa_calls _ _ _ _ _ _ _ P), in_or_app. auto. Qed.
Lemma paid_call : ledger_call_ok H (SkFascia f r).
Proof. apply (pa_calls _ _ _ _ _ _ _ P), in_or_app. right. left. reflexivity. Qed.
Lemma paid_reachable : reachable H K s.
Proof. exists calls. split; [|reflexivity]. intros x Hx. apply (paid_before x Hx). Qed.
Lemma paid_reachable' : reachable H K s'.
Proof. exists (calls ++ [SkFascia f r]). split; [|reflexivity]. intros x Hx. apply (pa_calls _ _ _ _ _ _ _ P x Hx). Qed.

(** What the index says afterwards *)
Lemma paid_index x : states (sk_index s') x <-> states (sk_index s) x \/ exists c b, In (c, b) (fascia_bundles f) /\ bundle_announces H c b (fascia_witness_id f) x.
Proof.
  pose proof (proj1 (fascia_ok H K _ _ _ _) paid_body) as (_ & (A & E) & _). rewrite E.
  assert (W : wf (sk_index s)) by apply (reachable_sound H HC K s paid_reachable). split.
  - intros F. apply calls_sound in F; [|exact W]. destruct F as [F|(c & Hc & An)]; [auto|right].
    apply in_map_iff in Hc as ([c0 b] & <- & Hb). exists c0, b. auto.
  - intros F. apply calls_ok; [exact W|exact A|]. destruct F as [F|(c & b & Hb & An)]; [auto|right].
    exists (ix_of (fascia_witness_id f) (c, b)). split; [apply in_map_iff; exists (c, b); auto|exact An].
Qed.

Lemma paid_status w : mget w (ms_witnesses (sk_state s')) = if keqb (fascia_witness_id f) w then r w else mget w (ms_witnesses (sk_state s)).
Proof.
  pose proof (pa_succeed _ _ _ _ _ _ _ P) as Su. assert (Su1 := Su). apply all_calls_app in Su1 as [Su1 _].
  unfold s', s. rewrite (C73_status OG H K _ w HC (pa_calls _ _ _ _ _ _ _ P) Su), (C73_status OG H K calls w HC paid_before Su1).
  unfold status. rewrite fold_left_app. cbn [fold_left status_after asks].
  replace (existsb (fun p => negb (len (b_known (snd p)) =? 0)) (fascia_bundles f)) with true; [rewrite Bool.andb_true_r; reflexivity|].
  symmetry. apply existsb_exists. destruct (pa_moves _ _ _ _ _ _ _ P) as (id & t & b & Hb & Ht). exists (cid, b). split; [exact Hb|]. cbn [snd].
  destruct (b_known b); [destruct Ht|]. unfold len. cbn [length]. destruct (_ =? 0) eqn:E; [|reflexivity]. apply N.eqb_eq in E. lia.
Qed.

Lemma paid_moved id t : moved f cid id t -> exists bid b, known_in s' id bid t /\ mget bid (st_bundles (sk_stash s')) = Some b /\
  In id (mvals (b_inputs b)) /\ states (sk_index s') (FBundle bid cid) /\ exists w, states (sk_index s') (FWitness bid w) /\ live (sk_state s') (Some w).
Proof.
  pose proof (proj1 (fascia_ok H K _ _ _ _) paid_body) as Q. cbv zeta in Q. destruct Q as (Hn & _). destruct (pa_live _ _ _ _ _ _ _ P) as (o & Er & No).
  intros (b & Hb & Ht). destruct (pa_new _ _ _ _ _ _ _ P) as [Nb Nd].
  destruct (C57_stored_partial OG H K f r s s' cid b HC paid_reachable (proj1 paid_call) paid_body Hb) as (_ & _ & St).
  destruct (St (Nb cid b Hb) Nd) as (Eb & _). exists (bundle_id H b), b.
  assert (Wb : bundle_wf H b) by apply (proj1 paid_call (cid, b) Hb).
  split; [|split; [exact Eb|split; [|split; [|exists (fascia_witness_id f); split]]]].
  + split; [|exists b; split; [exact Eb|]].
    * apply paid_index. right. exists cid, b. split; [exact Hb|]. right. right. exists id, t. auto.
    * apply In_mget; [apply Wb|exact Ht].
  + destruct (Hn (cid, b) Hb id t Ht) as (i & Hi). apply (in_map snd) in Hi. exact Hi.
  + apply paid_index. right. exists cid, b. split; [exact Hb|]. left. reflexivity.
  + apply paid_index. right. exists cid, b. split; [exact Hb|]. right. left. reflexivity.
  + exists o. rewrite paid_status, keqb_refl. auto.
Qed.

Lemma paid_export outputs secret : exportable H K s cid prev None ->
  (forall oo, found s' cid outputs secret oo -> exists t, moved f cid (oo_op oo) t) ->
  (forall o, In o outputs -> exists out oo, os_outpoint out = os_outpoint o /\ states (sk_index s') (FOut cid out oo)) ->
  (forall x, secret = Some x -> one_terminal H s' cid outputs x) ->
  at_most U16MAX (fun bid => exists x oo t ty no, secret = Some x /\ found s' cid outputs secret oo /\ oo_op oo <> cid /\
    known_in s' (oo_op oo) bid t /\ assigned_to H t ty no x) ->
  exportable H K s' cid outputs secret.
Proof.
  intros X Fo Ou Te Tf. destruct (calls_grow H HC K calls _ (pa_calls _ _ _ _ _ _ _ P) (pa_succeed _ _ _ _ _ _ _ P)) as (Sd & Sd' & Ki & Kb). fold s s' in Sd, Sd', Ki, Kb.
  pose proof (after_supported H HC K _ (pa_calls _ _ _ _ _ _ _ P) (pa_anchors _ _ _ _ _ _ _ P) (pa_succeed _ _ _ _ _ _ _ P) (pa_anchored _ _ _ _ _ _ _ P) (pa_message _ _ _ _ _ _ _ P)) as Sp. fold s' in Sp.
  pose proof (proj1 (fascia_ok H K _ _ _ _) paid_body) as Q. cbv zeta in Q. destruct Q as (Hn & _ & _ & (_ & Eh)).
  destruct (pa_live _ _ _ _ _ _ _ P) as (o & Er & No).
  apply (export_new H HC K s s' cid prev outputs secret f Sd Sd' Sp Ki Kb).
  - intros w (o1 & E & N1). cbn. rewrite paid_status. destruct (keqb _ w) eqn:Kw; [|eauto]. apply keqb_true in Kw. subst w. eauto.
  - intros bid w F. rewrite paid_status. destruct (keqb _ w) eqn:Kw; [apply keqb_true in Kw; subst w; congruence|].
    apply paid_index in F as [F|(c & b & Hb & [A|[A|(i & t & _ & [A|(ty & no & a & _ & [(x & out & _ & _ & A)|(x & _ & A)])])]])]; try discriminate A.
    + assert (Sp0 : supported s).
      { apply (after_supported H HC K calls paid_before).
        - intros f' r' Hf. apply (pa_anchors _ _ _ _ _ _ _ P f' r'), in_or_app. auto.
        - pose proof (pa_succeed _ _ _ _ _ _ _ P) as Su. apply all_calls_app in Su as [Su _]. exact Su.
        - destruct (pa_anchored _ _ _ _ _ _ _ P) as [W1 W2]. split; [intros c r' w' a b Hc; apply (W1 c r'), in_or_app; auto|intros f' r' c b Hf; apply (W2 f' r'), in_or_app; auto].
        - assert (Bm : forall w m c b, brings_message H calls w m c b -> brings_message H (calls ++ [SkFascia f r]) w m c b).
          { intros w' m c b [(c0 & r0 & a & b0 & Hc & Y)|(f0 & r0 & an & Hc & Y)]; [left; exists c0, r0, a, b0|right; exists f0, r0, an]; (split; [apply in_or_app; auto|exact Y]). }
          intros w' m c b b' M M'. apply (pa_message _ _ _ _ _ _ _ P w' m c); apply Bm; assumption. }
      destruct (sp_witness _ Sp0 bid w F) as (c0 & b & sw & an & _ & _ & Ew & _).
      pose proof (pa_succeed _ _ _ _ _ _ _ P) as Su. apply all_calls_app in Su as [Su1 _].
      unfold s. rewrite (C73_status OG H K calls w HC paid_before Su1). apply (pa_status _ _ _ _ _ _ _ P w sw). unfold stash_witness. fold s. rewrite Ew. reflexivity.
    + injection A as _ A. subst w. rewrite keqb_refl in Kw. discriminate.
  - exact (pa_history _ _ _ _ _ _ _ P).
  - apply (defs_definable (sk_stash s)); [|exact (xp_defined _ _ _ _ _ _ X)]. rewrite Eh. apply calls_defs.
    intros x [<-|Hx]; [left; eauto|right]. apply in_map_iff in Hx as (p & <- & _). exists (snd p). reflexivity.
  - exact Pk.
  - exact X.
  - exact (pa_named _ _ _ _ _ _ _ P).
  - exact (pa_spends _ _ _ _ _ _ _ P).
  - exact paid_moved.
  - exact Fo.
  - exact Ou.
  - exact Te.
  - exact Tf.
Qed.

(** Where its transitions are *)
Lemma paid_known b id t : In (cid, b) (fascia_bundles f) -> In (id, t) (b_known b) -> known_in s' id (bundle_id H b) t /\ op_id H t = id.
Proof.
  intros Hb Ht. destruct (pa_new _ _ _ _ _ _ _ P) as [Nb Nd].
  destruct (C57_stored_partial OG H K f r s s' cid b HC paid_reachable (proj1 paid_call) paid_body Hb) as (_ & _ & St).
  destruct (St (Nb cid b Hb) Nd) as (Eb & _).
  assert (Wb : bundle_wf H b) by apply (proj1 paid_call (cid, b) Hb). destruct Wb as (Wk & Ws & _).
  split; [|exact (Wk id t (In_mget _ _ _ Ws Ht))]. split; [|exists b; split; [exact Eb|exact (In_mget _ _ _ Ws Ht)]].
  apply paid_index. right. exists cid, b. split; [exact Hb|]. right. right. exists id, t. auto.
Qed.

(** Payments to a secret seal *)
Lemma paid_secret x id t ty no a : exportable H K s cid prev None ->
  moved f cid id t -> assigned t ty no a -> secret_of a = Some x -> pays_once H f x cid ->
  (forall oo, ~ states (sk_index s) (FTerm x oo)) ->
  exportable H K s' cid [] (Some x).
Proof.
  intros X M As Es (Po1 & Po2 & Po3) Un.
  assert (F1 : forall oo, found s' cid [] (Some x) oo -> exists b t1, In (cid, b) (fascia_bundles f) /\ In (oo_op oo, t1) (b_known b) /\
    exists ty1 no1, oo = {| oo_op := oo_op oo; oo_ty := ty1; oo_no := N.of_nat no1 |} /\ assigned_to H t1 ty1 no1 x).
  { intros oo [(out & o & [] & _)|(y & Ey & F)]. injection Ey as <-. apply paid_index in F as [F|(c & b & Hb & [A|[A|(i & t1 & Ht & [A|(ty1 & no1 & a1 & As1 & [(z & out & _ & _ & A)|(z & Ez & A)])])]])]; try discriminate A.
    - destruct (Un oo F).
    - injection A as <- ->. cbn [oo_op]. assert (At : assigned_to H t1 ty1 no1 x) by (exists a1; split; [exact As1|]; destruct a1; cbn in Ez; congruence).
      assert (Ec : c = cid) by (apply (Po1 c i t1 ty1 no1); [exists b; auto|exact At]).
      subst c. exists b, t1. split; [exact Hb|]. split; [exact Ht|]. exists ty1, no1. auto. }
  assert (Kt : forall i bid u, known_in s' i bid u -> op_id H u = i).
  { intros i bid u Hk. exact (known_keyed H s' i bid u (reachable_sound H HC K s' paid_reachable') Hk). }
  apply paid_export; [exact X| | | |].
  - intros oo F. destruct (F1 oo F) as (b & t1 & Hb & Ht & _). exists t1, b. auto.
  - intros o [].
  - intros y Ey. injection Ey as <-. intros bid oo u ty1 no1 oo1 u1 ty2 no2 F Ne Hk A1 F' Ne' Hk' A2.
    destruct (F1 oo F) as (b1 & t1 & Hb1 & Ht1 & tyA & noA & Eo1 & B1). destruct (F1 oo1 F') as (b2 & t2 & Hb2 & Ht2 & tyB & noB & Eo2 & B2).
    destruct (paid_known b1 _ t1 Hb1 Ht1) as (K1 & I1). destruct (paid_known b2 _ t2 Hb2 Ht2) as (K2 & I2).
    assert (E1 : bid = bundle_id H b1) by apply (known_in_fun _ _ _ _ _ _ Hk K1).
    assert (E2 : bid = bundle_id H b2) by apply (known_in_fun _ _ _ _ _ _ Hk' K2).
    assert (Eb : (cid, b1) = (cid, b2)).
    { destruct (pa_new _ _ _ _ _ _ _ P) as [_ Nd]. apply (distinct_eq (fun p : N * Bundle => bundle_id H (snd p)) (fascia_bundles f)); try assumption. cbn [snd]. congruence. }
    injection Eb as <-.
    apply (assigned_same H HC u t1) in A1; [|rewrite I1; exact (Kt _ bid u Hk)]. apply (assigned_same H HC u1 t2) in A2; [|rewrite I2; exact (Kt _ bid u1 Hk')].
    destruct (Po2 b1 _ t1 ty1 no1 _ t2 ty2 no2 Hb1 Ht1 Ht2 A1 A2) as (Q1 & -> & ->).
    destruct (Po2 b1 _ t1 tyA noA _ t2 tyB noB Hb1 Ht1 Ht2 B1 B2) as (_ & -> & ->). split; [|auto]. rewrite Eo1, Eo2, Q1. reflexivity.
  - intros l Nd Hl.
    assert (L : incl l (map (fun p => bundle_id H (snd p)) (fascia_bundles f))).
    { intros bid Hb. destruct (Hl bid Hb) as (x1 & oo & u & ty1 & no1 & Ex & G & _ & J & _). injection Ex as <-.
      destruct (F1 oo G) as (b1 & t1 & Hb1 & Ht1 & _). destruct (paid_known b1 _ t1 Hb1 Ht1) as (K1 & _).
      rewrite (proj1 (known_in_fun _ _ _ _ _ _ J K1)). apply in_map_iff. exists (cid, b1). auto. }
    apply (NoDup_incl_length Nd) in L. rewrite map_length in L. unfold len in *. lia.
Qed.

(** Payments to outputs of the transaction, or to outputs known otherwise *)
Lemma paid_outputs outputs : exportable H K s cid prev None ->
  (forall o, In o outputs -> exists id t ty no a x out, moved f cid id t /\ assigned t ty no a /\ revealed_seal a = Some x /\
     seal_output (Some (fascia_witness_id f)) x out /\ os_outpoint out = os_outpoint o) ->
  (forall o out oo, In o outputs -> os_outpoint out = os_outpoint o -> ~ states (sk_index s) (FOut cid out oo)) ->
  exportable H K s' cid outputs None.
Proof.
  intros X Hp Un. apply paid_export; [exact X| | | |].
  - intros oo [(out & o & Ho & Eo & F & _)|(y & Ey & _)]; [|discriminate].
    apply paid_index in F as [F|(c & b & Hb & [A|[A|(i & t1 & Ht & [A|(ty1 & no1 & a1 & As1 & [(z & out1 & _ & _ & A)|(z & Ez & A)])])]])]; try discriminate A.
    + destruct (Un o out oo Ho Eo F).
    + injection A as -> -> ->. exists t1, b. auto.
  - intros o Ho. destruct (Hp o Ho) as (id & t & ty & no & a & x & out & (b & Hb & Ht) & As & Rs & So & Eo).
    exists out, {| oo_op := id; oo_ty := ty; oo_no := N.of_nat no |}. split; [exact Eo|]. apply paid_index. right. exists cid, b. split; [exact Hb|].
    right. right. exists id, t. split; [exact Ht|]. right. exists ty, no, a. split; [exact As|]. left. exists x, out. auto.
  - discriminate.
  - intros l Nd Hl. destruct l as [|b l]; [vm_compute; discriminate|]. destruct (Hl b (or_introl eq_refl)) as (x & _ & _ & _ & _ & Y & _). discriminate.
Qed.
End Recorded.
