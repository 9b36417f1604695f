(** * Proofs about handing over payments *)
From Verif Require Import Base StM Core ContainerModel ContainerSpec ContainerProofs PIndexModel PIndexSpec PIndexProofs.
From Verif Require Import MergeModel MergeSpec MergeProofs StateModel StateSpec StateProofs StashModel StashSpec StashProofs StashAgain StockModel StockAgain StockProofs.
From Verif Require Import SupplySpec SupplyProps LedgerSpec LedgerProofs LedgerProps ConsignModel ConsignSpec ConsignProofs ConsignAccept ReplicaSpec ReplicaProofs.
From Verif Require Import ExportSpec ExportProofs GrowSpec GrowProofs GrowMain FasciaProps HandSpec.
Local Open Scope N_scope.

(** ** Recording leaves the definitions of contracts as they are *)

Record same_defs (s s' : MemStash) : Prop := {
  sd_geneses : st_geneses s' = st_geneses s;
  sd_schemata : st_schemata s' = st_schemata s;
  sd_ifaces : st_ifaces s' = st_ifaces s;
  sd_types : st_types s' = st_types s;
  sd_libs : st_libs s' = st_libs s;
  sd_sigs : st_sigs s' = st_sigs s;
  sd_suppl : st_suppl s' = st_suppl s
}.
Lemma same_defs_refl s : same_defs s s.
Proof. constructor; reflexivity. Qed.
Lemma same_defs_trans s s1 s2 : same_defs s s1 -> same_defs s1 s2 -> same_defs s s2.
Proof. intros [] []. constructor; congruence. Qed.

Lemma witness_defs w s : same_defs s (fst (consume_witness w s)).
Proof.
  unfold consume_witness, replace_witness, bind, get, put, lift, ret, grown.
  destruct (mget (sw_id w) (st_witnesses s)); cbn; [|destruct (cinsert _ _ _ _); cbn; constructor; reflexivity].
  destruct (rmap_err _ (merge_xpub _ _)); cbn; try (constructor; reflexivity).
  destruct (rmap_err _ (merge_anchors _ _)); cbn; try (constructor; reflexivity).
  destruct (cinsert _ _ _ _); cbn; constructor; reflexivity.
Qed.
Lemma bundle_defs H b s : same_defs s (fst (consume_bundle H b s)).
Proof.
  unfold consume_bundle, replace_bundle, bind, get, put, lift, ret, grown.
  destruct (mget (bundle_id H b) (st_bundles s)); cbn; [|destruct (cinsert _ _ _ _); cbn; constructor; reflexivity].
  destruct (rmap_err _ (merge_bundle _ _ _)); cbn; try (constructor; reflexivity).
  destruct (cinsert _ _ _ _); cbn; constructor; reflexivity.
Qed.
Lemma calls_defs H K l : forall s, (forall x, In x l -> (exists w, x = ShWitness w) \/ exists b, x = ShBundle b) -> same_defs s (stash_after H K s l).
Proof.
  induction l as [|x l IH]; intros s Hl; [apply same_defs_refl|]. unfold stash_after. cbn [fold_left]. change (fold_left _ l ?u) with (stash_after H K u l).
  eapply same_defs_trans; [|apply IH; intros y Hy; apply Hl; right; exact Hy].
  destruct (Hl x (or_introl eq_refl)) as [(w & ->)|(b & ->)]; cbn [stash_call]; unfold bind.
  - pose proof (witness_defs w s) as D. destruct (consume_witness w s) as [s1 [| |]]; exact D.
  - pose proof (bundle_defs H b s) as D. destruct (consume_bundle H b s) as [s1 [| |]]; exact D.
Qed.
Lemma defs_definable s s' cid : same_defs s s' -> definable s cid -> definable s' cid.
Proof.
  intros [E1 E2 E3 E4 E5 E6 E7]. unfold definable, first_note, iface_by_name, stash_ifaces. rewrite E1, E2, E3, E4, E5, E6, E7. auto.
Qed.

(** ** From the history of what is spent to the history of what is made *)

Section Export.
Context (H : Hashes) (HC : collision_free H) (K : Merkle) (s s' : Stock) (cid : N) (prev outputs : list OutSeal) (secret : option N) (f : Fascia).
Context (Sd : sound H s) (Sd' : sound H s') (Sp : supported s').
Context (Ki : forall f, states (sk_index s) f -> states (sk_index s') f).
Context (Kb : forall bid b, mget bid (st_bundles (sk_stash s)) = Some b -> holds_all H b (sk_stash s')).
Context (Wl : forall w, live (sk_state s) (Some w) -> live (sk_state s') (Some w)).
Context (St : forall bid w, states (sk_index s') (FWitness bid w) -> mget w (ms_witnesses (sk_state s')) <> None).
Context (Ow : in_contract s cid prev None) (Df : definable (sk_stash s') cid) (Pk : proves_known K).
Context (X : exportable H K s cid prev None) (Na : stock_named s).
(* what is recorded *)
Context (Sf : spends_from s f cid prev).
Context (Mk : forall id t, moved f cid id t -> exists bid b, known_in s' id bid t /\ mget bid (st_bundles (sk_stash s')) = Some b /\
  In id (mvals (b_inputs b)) /\ states (sk_index s') (FBundle bid cid) /\ exists w, states (sk_index s') (FWitness bid w) /\ live (sk_state s') (Some w)).
(* what is asked for *)
Context (Fo : forall oo, found s' cid outputs secret oo -> exists t, moved f cid (oo_op oo) t).
Context (Ou : forall o, In o outputs -> exists out oo, os_outpoint out = os_outpoint o /\ states (sk_index s') (FOut cid out oo)).
Context (Te : forall x, secret = Some x -> one_terminal H s' cid outputs x).
Context (Tf : at_most U16MAX (fun bid => exists x oo t ty no, secret = Some x /\ found s' cid outputs secret oo /\ oo_op oo <> cid /\
    known_in s' (oo_op oo) bid t /\ assigned_to H t ty no x)).

Let Kn : forall id, found_history s cid prev None id -> exists t, known_op s id t := xp_known _ _ _ _ _ _ X.

Lemma past id : found_history s' cid outputs secret id -> (exists t, moved f cid id t) \/ found_history s cid prev None id.
Proof.
  induction 1 as [id (oo & F & E) Ne|id t' i R IH (bid' & Hk') Hi Ne].
  - left. subst id. apply Fo, F.
  - destruct IH as [(t & M)|Hf].
    + destruct (Mk id t M) as (bid & b & Hk & _). destruct (known_in_fun _ _ _ _ _ _ Hk' Hk) as [-> ->].
      destruct (Sf id t i M Hi) as [F|M']; [|left; exact M']. right. apply reached_start; [exists i; auto|exact Ne].
    + right. destruct (Kn id Hf) as (t & bid & Hk). apply reached_parent with (id := id) (t := t); [exact Hf|exists bid; exact Hk| |exact Ne].
      rewrite <- (same_id_inputs H t' t HC (known_id H s s' Sd Sd' _ _ _ _ _ Hk Hk')). exact Hi.
Qed.

(** Where an operation of the history is, and what closed its bundle *)
Lemma placed id bid t : found_history s' cid outputs secret id -> known_in s' id bid t -> exists b,
  mget bid (st_bundles (sk_stash s')) = Some b /\ In id (mvals (b_inputs b)) /\ states (sk_index s') (FBundle bid cid) /\
  exists w, states (sk_index s') (FWitness bid w) /\ live (sk_state s') (Some w).
Proof.
  intros Hf Hk. destruct (past id Hf) as [(u & M)|Hp].
  - destruct (Mk id u M) as (bid1 & b & Hk1 & Eb & Hi & Fb & Fw). destruct (known_in_fun _ _ _ _ _ _ Hk Hk1) as [-> ->]. exists b. auto.
  - destruct (known_both H HC s s' cid prev None Sd Sd' Ki Kb Kn id bid t Hp Hk) as (u & Hu & _).
    pose proof Hu as (Io & b & Eb & Et). destruct (bundle_grows H HC s s' Sd Sd' Kb bid b Eb) as (b' & Eb' & _ & _ & Ei).
    exists b'. split; [exact Eb'|]. split.
    { rewrite Ei. destruct (Na bid b Eb id u (mget_In _ _ _ Et)) as (i & Hi). apply (in_map snd) in Hi. exact Hi. }
    split; [apply Ki, (Ow id bid Hp Io)|].
    destruct (xp_bundle _ _ _ _ _ _ X id bid u Hp Hu) as (w & _ & _ & (Fw & Lw & _) & _). exists w. split; [apply Ki, Fw|apply Wl, Lw].
Qed.

Lemma export_new : exportable H K s' cid outputs secret.
Proof.
  constructor.
  - pose proof (xp_contract _ _ _ _ _ _ X) as C. destruct (mget cid (mi_contracts (sk_index s))) as [ci|] eqn:E; [|congruence].
    destruct (Ki (PIndexSpec.FContract cid)) as (ci' & ->); [exists ci; exact E|discriminate].
  - exact Ou.
  - intros id Hf. destruct (past id Hf) as [(t & M)|Hp].
    + destruct (Mk id t M) as (bid & b & Hk & _). exists t, bid. exact Hk.
    + destruct (Kn id Hp) as (t & bid & Hk). destruct (known_grows H HC s s' Sd Sd' Ki Kb id bid t Hk) as (t' & Hk' & _). exists t', bid. exact Hk'.
  - intros id bid t Hf Hk. destruct (placed id bid t Hf Hk) as (b0 & Eb0 & _ & _ & w0 & Fw & Lw).
    destruct (first_live H s' Sd' St bid w0 Fw Lw) as (w & Ch). destruct Ch as (Cw & Cl & Ca).
    destruct (sp_witness _ Sp bid w Cw) as (c0 & b & sw & an & P1 & P2 & P3 & P4 & P5).
    destruct (Pk (an_root an) (an_known an) c0) as (pf & Epf); [congruence|].
    exists w, {| ea_mpc := pf; ea_dbc := {| dp_method := b_method b; dp_data := an_dbc an |} |}, b. split; [split; auto|].
    split; [exact P2|]. split; [exact Cw|]. split; [exact Cl|]. exists c0, sw, an. split; [exact P1|]. split; [exact P3|].
    split; [destruct (b_method b); exact P4|]. split; [exact Epf|reflexivity].
  - intros id t i bid u b Hf Hk Hi Ne Hki Eb.
    assert (Hf' : found_history s' cid outputs secret (oo_op i)) by (apply reached_parent with (id := id) (t := t); assumption).
    destruct (placed _ _ _ Hf' Hki) as (b1 & Eb1 & Hl & _). rewrite Eb in Eb1. apply Some_inj in Eb1. subst b1. exact Hl.
  - intros id bid t id1 bid1 t1 w b b1 Hf Hk Hf1 Hk1 (Cw & _) (Cw1 & _) Eb Eb1 Em.
    destruct (placed _ _ _ Hf Hk) as (_ & _ & _ & Fb & _). destruct (placed _ _ _ Hf1 Hk1) as (_ & _ & _ & Fb1 & _).
    destruct (sp_witness _ Sp bid w Cw) as (c0 & b0 & sw & an & P1 & P2 & P3 & P4 & P5).
    destruct (sp_witness _ Sp bid1 w Cw1) as (c1 & b2 & sw1 & an1 & Q1 & Q2 & Q3 & Q4 & Q5).
    cbn [states] in Fb, Fb1, P1, Q1. assert (c0 = cid) by congruence. assert (c1 = cid) by congruence. subst c0 c1.
    assert (sw1 = sw) by congruence. subst sw1. assert (b0 = b) by congruence. assert (b2 = b1) by congruence. subst b0 b2. rewrite Em, Q4 in P4. congruence.
  - exact Te.
  - exact Df.
  - intros l Nd Hl. pose proof (sp_room _ Sp) as R. assert (I : incl l (mkeys (st_witnesses (sk_stash s')))).
    { intros w Hw. destruct (Hl w Hw) as (id & bid & t & _ & _ & (Cw & _)). destruct (sp_witness _ Sp bid w Cw) as (c0 & b & sw & an & _ & _ & P & _).
      apply mget_In in P. apply (in_map fst) in P. exact P. }
    pose proof (NoDup_incl_length Nd I) as L. unfold mkeys in L. rewrite map_length in L. unfold len in *. lia.
  - exact Tf.
Qed.
End Export.
