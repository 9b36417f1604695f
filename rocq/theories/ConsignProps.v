(** * Exporting consignments: properties C34, C35 and C36 *)
From Verif Require Import Base StM Core MergeModel MergeSpec ContainerModel ContainerSpec ContainerProofs.
From Verif Require Import PIndexModel PIndexSpec PIndexProofs StateModel StateSpec StashModel StashSpec StashProofs StashAgain StashProps.
From Verif Require Import StockModel StockProofs StockAgain StockProps Ser ConsignModel ConsignSpec ConsignProofs ConsignAccept.
Local Open Scope N_scope.

(** ** C34: the history in a consignment *)

(** An exported consignment contains every transition of the history of what was found for the request,
    as the stock knows it, each in the bundle and with the witness and the anchor the stock has for it;
    the history is known without gaps. *)
Theorem C34_found_complete : forall (OG : OrdKey GlobalOut) H K s fuel transfer cid outputs secret c,
  collision_free H -> reachable H K s ->
  consign H K fuel s transfer cid outputs secret = Some (Ok c) ->
  forall id, found_history s cid outputs secret id ->
    (exists t, known_op s id t) /\
    forall bid t, known_in s id bid t -> reveals_op c id t /\ exists w a b, holds c w a b /\ anchored K s bid w a b.
Proof.
  intros OG H K s fuel transfer cid outputs secret c HC Re E id Hi.
  destruct (consign_ok H K s cid outputs secret fuel transfer c (reachable_sound H HC K s Re) E) as (P1 & _ & P3 & _).
  split; [apply P1, Hi|]. intros bid t Ki. destruct (P3 _ _ _ Hi Ki) as (w & a & b & Hh & An). split; [|eauto].
  exists w, a, b. split; [exact Hh|]. destruct Ki as (_ & b' & Eb & Et). destruct An as (Eb' & _).
  rewrite Eb in Eb'. apply Some_inj in Eb'. subst b'. exact Et.
Qed.

(** Whatever bundle it contains is there because of a transition of the history; it is the
    bundle of the stock, with a witness the stock has for it, not archived, and its anchor. *)
Theorem C34_found_bundles : forall (OG : OrdKey GlobalOut) H K s fuel transfer cid outputs secret c,
  collision_free H -> reachable H K s ->
  consign H K fuel s transfer cid outputs secret = Some (Ok c) ->
  (forall w a b, holds c w a b -> exists id bid t,
     found_history s cid outputs secret id /\ known_in s id bid t /\ anchored K s bid w a b) /\
  (forall wb, In wb (c_bundles c) -> exists sw,
     mget (wb_id wb) (st_witnesses (sk_stash s)) = Some sw /\ wb_witness wb = sw_public sw).
Proof.
  intros OG H K s fuel transfer cid outputs secret c HC Re E.
  destruct (consign_ok H K s cid outputs secret fuel transfer c (reachable_sound H HC K s Re) E) as (_ & P2 & _ & P4 & _). auto.
Qed.

(** Where the bundles of the history reveal nothing else, the consignment contains the
    history and no other transition. *)
Theorem C34_found_exact : forall (OG : OrdKey GlobalOut) H K s fuel transfer cid outputs secret c,
  collision_free H -> reachable H K s ->
  (forall id bid t id' b, found_history s cid outputs secret id -> known_in s id bid t ->
     mget bid (st_bundles (sk_stash s)) = Some b -> mget id' (b_known b) <> None ->
     found_history s cid outputs secret id' /\ states (sk_index s) (FOp id' bid)) ->
  consign H K fuel s transfer cid outputs secret = Some (Ok c) ->
  forall id t, reveals_op c id t <-> found_history s cid outputs secret id /\ known_op s id t.
Proof.
  intros OG H K s fuel transfer cid outputs secret c HC Re Only E id t.
  destruct (consign_ok H K s cid outputs secret fuel transfer c (reachable_sound H HC K s Re) E) as (P1 & P2 & P3 & _). split.
  - intros (w & a & b & Hh & Et). destruct (P2 _ _ _ Hh) as (id' & bid & t' & Hi & Ki & An). destruct An as (Eb & _).
    destruct (Only id' bid t' id b Hi Ki Eb) as [H1 H2]; [congruence|]. split; [exact H1|]. exists bid. split; [exact H2|]. eauto.
  - intros [Hi (bid & Ki)]. destruct (P3 _ _ _ Hi Ki) as (w & a & b & Hh & (Eb & _)). exists w, a, b. split; [exact Hh|].
    destruct Ki as (_ & b' & Eb' & Et). rewrite Eb in Eb'. apply Some_inj in Eb'. subst b'. exact Et.
Qed.

(** The terminals of the consignment: the bundles of the transitions asked for which are
    assigned to the secret seal, and nothing else; they are contained. *)
Theorem C34_found_terminals : forall (OG : OrdKey GlobalOut) H K s fuel transfer cid outputs secret c,
  collision_free H -> reachable H K s ->
  consign H K fuel s transfer cid outputs secret = Some (Ok c) ->
  forall bid x, mget bid (c_terminals c) = Some x <-> secret = Some x /\
    exists oo t ty no w a b, found s cid outputs secret oo /\ oo_op oo <> cid /\ known_in s (oo_op oo) bid t /\
      assigned_to H t ty no x /\ holds c w a b /\ anchored K s bid w a b.
Proof.
  intros OG H K s fuel transfer cid outputs secret c HC Re E bid x.
  destruct (consign_ok H K s cid outputs secret fuel transfer c (reachable_sound H HC K s Re) E) as (_ & _ & P3 & _ & P5 & _).
  rewrite P5. split.
  - intros (Es & oo & t & ty & no & R & Ne & Ki & As). split; [exact Es|].
    assert (Hi : found_history s cid outputs secret (oo_op oo)) by (apply reached_start; [exists oo; auto|exact Ne]).
    destruct (P3 _ _ _ Hi Ki) as (w & a & b & Hh & An). exists oo, t, ty, no, w, a, b. repeat (split; [assumption|]). assumption.
  - intros (Es & oo & t & ty & no & w & a & b & R & Ne & Ki & As & _). split; [exact Es|]. exists oo, t, ty, no. auto.
Qed.

(** The genesis, schema, interfaces, implementations, types, scripts, signatures and
    annotations are those of the stash. *)
Theorem C34_definitions : forall (OG : OrdKey GlobalOut) H K s fuel transfer cid outputs secret c,
  collision_free H -> reachable H K s ->
  consign H K fuel s transfer cid outputs secret = Some (Ok c) ->
  c_transfer c = transfer /\ c_extensions c = [] /\ c_attachments c = [] /\ defined (sk_stash s) cid c /\
  op_id H (c_genesis c) = cid.
Proof.
  intros OG H K s fuel transfer cid outputs secret c HC Re E. pose proof (reachable_sound H HC K s Re) as Sd.
  destruct (consign_ok H K s cid outputs secret fuel transfer c Sd E) as (_ & _ & _ & _ & _ & P6 & P7 & P8 & P9).
  repeat (split; [assumption|]). exact (fi_genesis _ _ (go_filed _ _ (sd_stash _ _ Sd)) _ _ (df_genesis _ _ _ P9)).
Qed.

(** Where the contract has one seal at each output asked for, all that was asked for is found: the
    consignment has the history of it. *)
Theorem C34_history_complete_partial : forall (OG : OrdKey GlobalOut) H K s fuel transfer cid outputs secret c,
  collision_free H -> reachable H K s -> one_seal s cid outputs ->
  consign H K fuel s transfer cid outputs secret = Some (Ok c) ->
  forall id, history_of s cid outputs secret id ->
    (exists t, known_op s id t) /\
    forall bid t, known_in s id bid t -> reveals_op c id t /\ exists w a b, holds c w a b /\ anchored K s bid w a b.
Proof.
  intros OG H K s fuel transfer cid outputs secret c HC Re Os E id Hi. apply (history_found _ _ _ _ _ Os) in Hi.
  exact (C34_found_complete OG H K s fuel transfer cid outputs secret c HC Re E id Hi).
Qed.

(** Whatever bundle it contains is there because of a transition of the history, with or without this. *)
Theorem C34_only_bundles_of_history : forall (OG : OrdKey GlobalOut) H K s fuel transfer cid outputs secret c,
  collision_free H -> reachable H K s ->
  consign H K fuel s transfer cid outputs secret = Some (Ok c) ->
  (forall w a b, holds c w a b -> exists id bid t,
     history_of s cid outputs secret id /\ known_in s id bid t /\ anchored K s bid w a b) /\
  (forall wb, In wb (c_bundles c) -> exists sw,
     mget (wb_id wb) (st_witnesses (sk_stash s)) = Some sw /\ wb_witness wb = sw_public sw).
Proof.
  intros OG H K s fuel transfer cid outputs secret c HC Re E.
  destruct (C34_found_bundles OG H K s fuel transfer cid outputs secret c HC Re E) as [P2 P4]. split; [|exact P4].
  intros w a b Hh. destruct (P2 _ _ _ Hh) as (id & bid & t & Hi & X). exists id, bid, t. split; [|exact X].
  revert Hi. apply reached_ext. intros x (oo & R & Eo). exists oo. split; [apply found_requested, R|exact Eo].
Qed.

Theorem C34_history_exact_partial : forall (OG : OrdKey GlobalOut) H K s fuel transfer cid outputs secret c,
  collision_free H -> reachable H K s -> one_seal s cid outputs ->
  (forall id bid t id' b, history_of s cid outputs secret id -> known_in s id bid t ->
     mget bid (st_bundles (sk_stash s)) = Some b -> mget id' (b_known b) <> None ->
     history_of s cid outputs secret id' /\ states (sk_index s) (FOp id' bid)) ->
  consign H K fuel s transfer cid outputs secret = Some (Ok c) ->
  forall id t, reveals_op c id t <-> history_of s cid outputs secret id /\ known_op s id t.
Proof.
  intros OG H K s fuel transfer cid outputs secret c HC Re Os Only E id t. rewrite (history_found _ _ _ _ _ Os).
  apply (C34_found_exact OG H K s fuel transfer cid outputs secret c HC Re); [|exact E].
  intros id0 bid t0 id' b. rewrite <- !(history_found _ _ _ _ _ Os). apply Only.
Qed.

Theorem C34_terminals_partial : forall (OG : OrdKey GlobalOut) H K s fuel transfer cid outputs secret c,
  collision_free H -> reachable H K s -> one_seal s cid outputs ->
  consign H K fuel s transfer cid outputs secret = Some (Ok c) ->
  forall bid x, mget bid (c_terminals c) = Some x <-> secret = Some x /\
    exists oo t ty no w a b, requested s cid outputs secret oo /\ oo_op oo <> cid /\ known_in s (oo_op oo) bid t /\
      assigned_to H t ty no x /\ holds c w a b /\ anchored K s bid w a b.
Proof.
  intros OG H K s fuel transfer cid outputs secret c HC Re Os E bid x.
  rewrite (C34_found_terminals OG H K s fuel transfer cid outputs secret c HC Re E bid x).
  split; intros (Es & oo & t & ty & no & w & a & b & R & X); (split; [exact Es|]); exists oo, t, ty, no, w, a, b; (split; [|exact X]);
    apply (requested_found _ _ _ _ _ Os), R.
Qed.

(** *** A stock for the examples *)

(** Calls which bring what their types in the code guarantee, decided *)
Fixpoint sortedb {K V} `{OrdKey K} (m : omap K V) : bool :=
  match m with
  | [] => true
  | p :: m' => forallb (fun q => match cmp (fst p) (fst q) with Lt => true | _ => false end) m' && sortedb m'
  end.
Lemma sortedb_ok {K V} `{OrdKey K} (m : omap K V) : sortedb m = true -> msorted m.
Proof.
  induction m as [|p m IH]; cbn [sortedb]; intros E; [constructor|]. apply andb_prop in E as [E1 E2].
  constructor; [apply IH, E2|]. rewrite forallb_forall in E1. apply Forall_forall. intros q Hq. specialize (E1 q Hq).
  unfold key_lt. destruct (cmp (fst p) (fst q)); [discriminate|reflexivity|discriminate].
Qed.
Definition op_sortedb (o : Operation) : bool :=
  sortedb (op_assigns o : omap N TypedAssigns) && sortedb (op_globals o).
Lemma op_sortedb_ok o : op_sortedb o = true -> op_sorted o.
Proof. intros E. apply andb_prop in E as [E1 E2]. split; apply sortedb_ok; assumption. Qed.
Definition bundle_okb (H : Hashes) (b : Bundle) : bool :=
  forallb (fun p => (op_id H (snd p) =? fst p) && op_sortedb (snd p)) (b_known b) && sortedb (b_known b) &&
  (len (b_known b) <=? len (b_inputs b)).
Lemma bundle_okb_ok H b : bundle_okb H b = true -> bundle_ok H b /\ bundle_sorted b.
Proof.
  intros E. apply andb_prop in E as [E E3]. apply andb_prop in E as [E1 E2]. rewrite forallb_forall in E1.
  assert (Hp : forall k t, In (k, t) (b_known b) -> op_id H t = k /\ op_sorted t).
  { intros k t Hin. specialize (E1 _ Hin). cbn [fst snd] in E1. apply andb_prop in E1 as [X Y]. split; [apply N.eqb_eq, X|apply op_sortedb_ok, Y]. }
  split.
  - split; [|apply N.leb_le, E3]. split; [|split; [apply sortedb_ok, E2|]]; intros k t Et; apply mget_In in Et; apply (Hp k t Et).
  - intros o Ho. unfold mvals in Ho. apply in_map_iff in Ho as ([k t] & <- & Hin). apply (Hp k t Hin).
Qed.
Definition cons_okb (H : Hashes) (c : Consignment) : bool :=
  op_sortedb (c_genesis c) && forallb op_sortedb (c_extensions c) &&
  forallb (fun wb => forallb (fun p => bundle_okb H (snd p)) (anchored_iter (wb_bundles wb))) (c_bundles c) &&
  sortedb (map (fun wb => (wb_id wb, tt)) (c_bundles c)) && sortedb (c_signatures c) &&
  forallb (fun p => sortedb (snd p)) (c_signatures c).
Lemma cons_okb_ok H c r : cons_okb H c = true -> stock_call_ok H (SkAccept c r).
Proof.
  intros E. apply andb_prop in E as [E E6]. apply andb_prop in E as [E E5]. apply andb_prop in E as [E E4].
  apply andb_prop in E as [E E3]. apply andb_prop in E as [E1 E2].
  rewrite forallb_forall in E2, E3, E6.
  assert (B : forall wb p, In wb (c_bundles c) -> In p (anchored_iter (wb_bundles wb)) -> bundle_ok H (snd p) /\ bundle_sorted (snd p)).
  { intros wb p Hw Hp. specialize (E3 wb Hw). rewrite forallb_forall in E3. apply bundle_okb_ok, E3, Hp. }
  split; [constructor|split; [apply op_sortedb_ok, E1|split]].
  - apply (op_sortedb_ok _ E1).
  - intros e He. apply (op_sortedb_ok _ (E2 e He)).
  - intros wb p Hw Hp. apply (B wb p Hw Hp).
  - apply sortedb_ok in E4. apply msorted_NoDup in E4. unfold mkeys in E4. rewrite map_map in E4. exact E4.
  - apply sortedb_ok, E5.
  - intros x sigs Hin. apply sortedb_ok. exact (E6 (x, sigs) Hin).
  - intros e He. apply op_sortedb_ok, E2, He.
  - intros wb o Hw Ho. unfold wb_known_transitions in Ho. apply in_flat_map in Ho as (b & Hb & Ho).
    rewrite anchored_bundles_map in Hb. apply in_map_iff in Hb as (p & <- & Hp). exact (proj2 (B wb p Hw Hp) o Ho).
Qed.

Definition cn_seal (txid vout : N) : Seal :=
  {| s_layer := Bitcoin; s_method := TapretFirst; s_txid := Some txid; s_vout := vout; s_blinding := 0 |}.
Definition cn_op (k : OpKind) (ty : N) (inputs : list Opout) (a : list Assign) : Operation :=
  {| op_kind := k; op_head := 0; op_contract := 1; op_ty := ty; op_nonce := 0; op_meta := [];
     op_globals := []; op_inputs := inputs; op_redeemed := [];
     op_assigns := [(4, {| ta_kind := KDeclarative; ta_list := a |})]; op_valencies := [] |}.
Definition cn_in (id : N) : Opout := {| oo_op := id; oo_ty := 4; oo_no := 0 |}.
Definition cn_bundle (H : Hashes) (ts : list Operation) : Bundle :=
  {| b_method := TapretFirst; b_inputs := map (fun p => (fst p, op_id H (snd p))) (combine (map N.of_nat (seq 0 (length ts))) ts);
     b_known := fold_left (fun m t => minsert (op_id H t) t m) ts [] |}.
Definition cn_wb (txid : N) (b : Bundle) : WitnessBundle :=
  {| wb_witness := {| xw_layer := Bitcoin; xw_pub := PwTxid txid |};
     wb_bundles := ABTapret {| cb_mpc := 7; cb_dbc := {| dp_method := TapretFirst; dp_data := 0 |}; cb_bundle := b |} |}.

(** A genesis, a transition spending its output, in one bundle with a transition from
    elsewhere, and a transition spending the output of the first, with the assignments [a] *)
Definition cn_genesis : Operation := cn_op OpGenesis 5 [] [Revealed (cn_seal 100 0) RVoid].
Definition cn_first (H : Hashes) : Operation :=
  cn_op OpTransition 2 [cn_in (op_id H cn_genesis)] [Revealed (cn_seal 101 1) RVoid].
Definition cn_other : Operation := cn_op OpTransition 3 [cn_in 77] [Confidential 3 4].
Definition cn_last (H : Hashes) (a : list Assign) : Operation := cn_op OpTransition 2 [cn_in (op_id H (cn_first H))] a.
Definition cn_cons (H : Hashes) (siblings : list Operation) (a : list Assign) : Consignment :=
  {| c_transfer := true; c_terminals := []; c_genesis := cn_genesis;
     c_extensions := []; c_schema := {| sch_id := 5; sch_globals := []; sch_libs := [6]; sch_types := [1] |};
     c_ifaces := [(ex_iface 3 30, ex_impl 1 5 3)]; c_supplements := [];
     c_bundles := [cn_wb 8 (cn_bundle H (cn_first H :: siblings)); cn_wb 9 (cn_bundle H [cn_last H a])];
     c_types := [(1, 11)]; c_scripts := [(6, 66)]; c_attachments := [];
     c_signatures := [((TagSchema, 5), [(100, 7)])] |}.
Definition cn_merkle : Merkle := {| mk_with := fun _ _ m => Some m; mk_proof := fun _ k c => mget c k |}.
Lemma cn_proves : proves_known cn_merkle.
Proof. intros root known cid Hc. cbn. destruct (mget cid known) as [p|]; [eauto|congruence]. Qed.

Definition cn_stock {OG : OrdKey GlobalOut} (siblings : list Operation) (a : list Assign) : Stock :=
  stock_after bit_hashes cn_merkle sk_empty [SkAccept (cn_cons bit_hashes siblings a) yes_witness].

Lemma cn_reachable {OG : OrdKey GlobalOut} siblings a :
  cons_okb bit_hashes (cn_cons bit_hashes siblings a) = true -> reachable bit_hashes cn_merkle (cn_stock siblings a).
Proof.
  intros E. exists [SkAccept (cn_cons bit_hashes siblings a) yes_witness]. split; [|reflexivity].
  intros c [<-|[]]. apply cons_okb_ok, E.
Qed.

Definition cn_secret : N := h_seal bit_hashes ex_secret.
Definition cn_cid : N := op_id bit_hashes cn_genesis.
Definition cn_id (a : list Assign) : N := op_id bit_hashes (cn_last bit_hashes a).
Definition cn_a : list Assign := [ConfidentialSeal cn_secret RVoid].

(** The export of the last transition of that contract contains the first as well. *)
Example C34_nonvacuous : forall OG : OrdKey GlobalOut, exists fuel c,
  reachable bit_hashes cn_merkle (cn_stock [cn_other] cn_a) /\ one_seal (cn_stock [cn_other] cn_a) cn_cid [] /\
  consign bit_hashes cn_merkle fuel (cn_stock [cn_other] cn_a) true cn_cid [] (Some cn_secret) = Some (Ok c) /\
  history_of (cn_stock [cn_other] cn_a) cn_cid [] (Some cn_secret) (cn_id cn_a) /\
  history_of (cn_stock [cn_other] cn_a) cn_cid [] (Some cn_secret) (op_id bit_hashes (cn_first bit_hashes)) /\
  len (c_bundles c) = 2 /\ len (c_terminals c) = 1 /\ c_genesis c = cn_genesis /\ c_signatures c = [((TagSchema, 5), [(100, 7)])] /\
  c_types c = [(1, 11)] /\ c_scripts c = [(6, 66)] /\ c_ifaces c = [(ex_iface 3 30, ex_impl 1 5 3)].
Proof.
  intros OG.
  assert (E : exists c, consign bit_hashes cn_merkle 5 (cn_stock [cn_other] cn_a) true cn_cid [] (Some cn_secret) = Some (Ok c) /\
    len (c_bundles c) = 2 /\ len (c_terminals c) = 1 /\ c_genesis c = cn_genesis /\ c_signatures c = [((TagSchema, 5), [(100, 7)])] /\
    c_types c = [(1, 11)] /\ c_scripts c = [(6, 66)] /\ c_ifaces c = [(ex_iface 3 30, ex_impl 1 5 3)]).
  { eexists. split; [vm_compute; reflexivity|]. vm_compute. auto 10. }
  destruct E as (c & E & F). exists 5%nat, c. split; [apply cn_reachable; vm_compute; reflexivity|]. split; [intros ? ? ? ? ? _ _ []|].
  split; [exact E|].
  assert (Hl : history_of (cn_stock [cn_other] cn_a) cn_cid [] (Some cn_secret) (cn_id cn_a)).
  { apply reached_start; [|vm_compute; discriminate]. exists (cn_in (cn_id cn_a)). split; [|reflexivity].
    right. exists cn_secret. split; [reflexivity|]. eexists. split; [vm_compute; reflexivity|]. vm_compute. left. reflexivity. }
  split; [exact Hl|]. split; [|exact F].
  refine (reached_parent _ _ _ (cn_id cn_a) (cn_last bit_hashes cn_a) (cn_in (op_id bit_hashes (cn_first bit_hashes))) Hl _ _ _).
  - apply transition_ok. vm_compute. reflexivity.
  - left. reflexivity.
  - vm_compute. discriminate.
Qed.

(** Without the transition from elsewhere the consignment is exact. *)
Example C34_exact_nonvacuous : forall OG : OrdKey GlobalOut, let s := cn_stock [] cn_a in
  forall id bid t id' b, known_in s id bid t -> mget bid (st_bundles (sk_stash s)) = Some b -> mget id' (b_known b) <> None ->
    id' = id.
Proof.
  intros OG s id bid t id' b (_ & b' & Eb & Et) Eb' Hn. rewrite Eb in Eb'. apply Some_inj in Eb'. subst b'.
  assert (L : Forall (fun p : N * Bundle => length (b_known (snd p)) = 1%nat) (st_bundles (sk_stash s))) by (vm_compute; repeat constructor).
  clearbody s. apply mget_In in Eb. rewrite Forall_forall in L. specialize (L _ Eb). cbn [snd] in L.
  destruct (b_known b) as [|[k v] [|q l]]; try discriminate L. cbn [mget] in *.
  destruct (keqb id' k) eqn:E1; [|destruct Hn; reflexivity]. destruct (keqb id k) eqn:E2; [|discriminate].
  apply keqb_true in E1, E2. subst. reflexivity.
Qed.

(** But a bundle is exported with all the stock knows of it: a transition which shares a
    bundle with one of the history is contained though it is no ancestor of what was asked
    for, and its own ancestors are not. *)
Theorem C34_only_ancestors_refuted : forall OG : OrdKey GlobalOut, ~ forall H K s fuel transfer cid outputs secret c id t,
  collision_free H -> reachable H K s -> one_seal s cid outputs ->
  consign H K fuel s transfer cid outputs secret = Some (Ok c) ->
  reveals_op c id t -> history_of s cid outputs secret id.
Proof.
  intros OG Bad.
  assert (E : exists c, consign bit_hashes cn_merkle 5 (cn_stock [cn_other] cn_a) true cn_cid [] (Some cn_secret) = Some (Ok c) /\
    reveals_op c (op_id bit_hashes cn_other) cn_other).
  { eexists. split; [vm_compute; reflexivity|]. do 3 eexists. split.
    - apply holds_iff. eexists. split; [left; reflexivity|split; [reflexivity|left; reflexivity]].
    - vm_compute. reflexivity. }
  destruct E as (c & E & R).
  assert (Re : reachable bit_hashes cn_merkle (cn_stock [cn_other] cn_a)) by (apply cn_reachable; vm_compute; reflexivity).
  assert (Os : one_seal (cn_stock [cn_other] cn_a) cn_cid []) by (intros ? ? ? ? ? _ _ []).
  pose proof (Bad _ _ _ _ _ _ _ _ _ _ _ bit_collision_free Re Os E R) as Hi.
  assert (Hp : history_of (cn_stock [cn_other] cn_a) cn_cid [] (Some cn_secret) 77).
  { refine (reached_parent _ _ _ (op_id bit_hashes cn_other) cn_other (cn_in 77) Hi _ _ _).
    - apply transition_ok. vm_compute. reflexivity.
    - left. reflexivity.
    - vm_compute. discriminate. }
  destruct (C34_history_complete_partial OG _ _ _ _ _ _ _ _ _ bit_collision_free Re Os E _ Hp) as [(t & Kt) _].
  apply transition_ok in Kt. vm_compute in Kt. discriminate.
Qed.

Theorem C34_all_ancestors_refuted : forall OG : OrdKey GlobalOut, ~ forall H K s fuel transfer cid outputs secret c id t i,
  collision_free H -> reachable H K s -> one_seal s cid outputs ->
  consign H K fuel s transfer cid outputs secret = Some (Ok c) ->
  reveals_op c id t -> In i (op_inputs t) -> oo_op i <> cid -> exists t', reveals_op c (oo_op i) t'.
Proof.
  intros OG Bad.
  assert (E : exists c, consign bit_hashes cn_merkle 5 (cn_stock [cn_other] cn_a) true cn_cid [] (Some cn_secret) = Some (Ok c) /\
    reveals_op c (op_id bit_hashes cn_other) cn_other /\
    Forall (fun wb => Forall (fun p => mget 77 (b_known (snd p)) = None) (anchored_iter (wb_bundles wb))) (c_bundles c)).
  { eexists. split; [vm_compute; reflexivity|]. split.
    - do 3 eexists. split; [apply holds_iff; eexists; split; [left; reflexivity|split; [reflexivity|left; reflexivity]]|vm_compute; reflexivity].
    - vm_compute. repeat constructor. }
  destruct E as (c & E & R & F).
  assert (Re : reachable bit_hashes cn_merkle (cn_stock [cn_other] cn_a)) by (apply cn_reachable; vm_compute; reflexivity).
  assert (Os : one_seal (cn_stock [cn_other] cn_a) cn_cid []) by (intros ? ? ? ? ? _ _ []).
  destruct (Bad _ _ _ _ _ _ _ _ _ _ _ (cn_in 77) bit_collision_free Re Os E R) as (t' & w & a & b & Hh & Et).
  - left. reflexivity.
  - vm_compute. discriminate.
  - apply holds_iff in Hh. destruct Hh as (wb & Hin & _ & Hp). rewrite Forall_forall in F. specialize (F _ Hin).
    rewrite Forall_forall in F. specialize (F _ Hp). cbn [snd] in F. cbn [cn_in oo_op] in Et. congruence.
Qed.

(** And where the contract has two seals at one output, one per closing method, only the
    history of one of them is contained. *)
Definition ts_genesis : Operation := cn_op OpGenesis 5 [] [Revealed (cn_seal 100 0) RVoid; Revealed (cn_seal 100 1) RVoid].
Definition ts_cid : N := op_id bit_hashes ts_genesis.
Definition ts_op (no : N) (m : CloseMethod) : Operation :=
  cn_op OpTransition 2 [{| oo_op := ts_cid; oo_ty := 4; oo_no := no |}]
    [Revealed {| s_layer := Bitcoin; s_method := m; s_txid := Some 103; s_vout := 7; s_blinding := 0 |} RVoid].
Definition ts_cons : Consignment :=
  {| c_transfer := true; c_terminals := []; c_genesis := ts_genesis;
     c_extensions := []; c_schema := {| sch_id := 5; sch_globals := []; sch_libs := []; sch_types := [] |};
     c_ifaces := []; c_supplements := [];
     c_bundles := [cn_wb 8 (cn_bundle bit_hashes [ts_op 0 TapretFirst]); cn_wb 9 (cn_bundle bit_hashes [ts_op 1 OpretFirst])];
     c_types := []; c_scripts := []; c_attachments := []; c_signatures := [] |}.
Definition ts_stock {OG : OrdKey GlobalOut} : Stock := stock_after bit_hashes cn_merkle sk_empty [SkAccept ts_cons yes_witness].
Definition ts_out (m : CloseMethod) : OutSeal := {| os_layer := Bitcoin; os_method := m; os_txid := 103; os_vout := 7 |}.
Theorem C34_two_seals_refuted : forall OG : OrdKey GlobalOut, ~ forall H K s fuel transfer cid outputs secret c id,
  collision_free H -> reachable H K s ->
  consign H K fuel s transfer cid outputs secret = Some (Ok c) ->
  history_of s cid outputs secret id -> exists t, known_op s id t /\ reveals_op c id t.
Proof.
  intros OG Bad.
  assert (Re : reachable bit_hashes cn_merkle ts_stock).
  { exists [SkAccept ts_cons yes_witness]. split; [|reflexivity]. intros c [<-|[]]. apply cons_okb_ok. vm_compute. reflexivity. }
  destruct (consign bit_hashes cn_merkle 5 ts_stock true ts_cid [ts_out TapretFirst] None) as [[c|e|]|] eqn:E;
    [|exfalso; revert E; vm_compute; discriminate ..].
  assert (Ek : forallb (fun wb => forallb (fun p => match mget (op_id bit_hashes (ts_op 0 TapretFirst)) (b_known (snd p)) with None => true | _ => false end)
    (anchored_iter (wb_bundles wb))) (c_bundles c) = true).
  { assert (Ec : match consign bit_hashes cn_merkle 5 ts_stock true ts_cid [ts_out TapretFirst] None with
      | Some (Ok c) => forallb (fun wb => forallb (fun p => match mget (op_id bit_hashes (ts_op 0 TapretFirst)) (b_known (snd p)) with None => true | _ => false end)
          (anchored_iter (wb_bundles wb))) (c_bundles c)
      | _ => false end = true) by (vm_compute; reflexivity).
    rewrite E in Ec. exact Ec. }
  destruct (Bad _ _ _ _ _ _ _ _ _ (op_id bit_hashes (ts_op 0 TapretFirst)) bit_collision_free Re E) as (t & _ & Rv).
  - apply reached_start; [|vm_compute; discriminate]. exists (cn_in (op_id bit_hashes (ts_op 0 TapretFirst))). split; [|reflexivity].
    left. exists (ts_out TapretFirst), (ts_out TapretFirst). split; [left; reflexivity|]. split; [reflexivity|].
    eexists _, _. split; [vm_compute; reflexivity|]. split; [vm_compute; reflexivity|]. left. vm_compute. reflexivity.
  - destruct Rv as (w & a & b & Hh & Eb). apply holds_iff in Hh. destruct Hh as (wb & Hin & _ & Hp).
    rewrite forallb_forall in Ek. specialize (Ek wb Hin). rewrite forallb_forall in Ek. specialize (Ek (a, b) Hp). cbn [snd] in Ek.
    rewrite Eb in Ek. discriminate Ek.
Qed.

(** What was found there is the seal closed by opret, and its history is exported. *)
Example C34_found_nonvacuous : forall OG : OrdKey GlobalOut,
  let outs := [ts_out TapretFirst] in let id := op_id bit_hashes (ts_op 1 OpretFirst) in
  exists c, consign bit_hashes cn_merkle 5 ts_stock true ts_cid outs None = Some (Ok c) /\
    reachable bit_hashes cn_merkle ts_stock /\ ~ one_seal ts_stock ts_cid outs /\
    found_history ts_stock ts_cid outs None id /\ reveals_op c id (ts_op 1 OpretFirst).
Proof.
  intros OG outs id.
  destruct (consign bit_hashes cn_merkle 5 ts_stock true ts_cid [ts_out TapretFirst] None) as [[c|e|]|] eqn:E;
    [|exfalso; revert E; vm_compute; discriminate ..].
  assert (Re : reachable bit_hashes cn_merkle ts_stock).
  { exists [SkAccept ts_cons yes_witness]. split; [|reflexivity]. intros x [<-|[]]. apply cons_okb_ok. vm_compute. reflexivity. }
  assert (F : forall no m, no = 0 /\ m = TapretFirst \/ no = 1 /\ m = OpretFirst ->
    states (sk_index ts_stock) (FOut ts_cid (ts_out m) (cn_in (op_id bit_hashes (ts_op no m))))).
  { intros no m [[-> ->]|[-> ->]]; eexists _, _; (split; [vm_compute; reflexivity|]); (split; [vm_compute; reflexivity|]); left; vm_compute; reflexivity. }
  assert (Hi : found_history ts_stock ts_cid outs None id).
  { apply reached_start; [|vm_compute; discriminate]. exists (cn_in id). split; [|reflexivity].
    left. exists (ts_out OpretFirst), (ts_out TapretFirst). split; [left; reflexivity|]. split; [reflexivity|].
    split; [apply F; auto|left; reflexivity]. }
  exists c. split; [exact E|]. split; [exact Re|]. split; [|split; [exact Hi|]].
  - intros Os. specialize (Os (ts_out TapretFirst) (ts_out OpretFirst) _ _ (ts_out TapretFirst) (F 0 TapretFirst (or_introl (conj eq_refl eq_refl)))
      (F 1 OpretFirst (or_intror (conj eq_refl eq_refl))) (or_introl eq_refl) eq_refl eq_refl). discriminate Os.
  - destruct (C34_found_complete OG bit_hashes cn_merkle ts_stock 5 true ts_cid outs None c bit_collision_free Re E id Hi) as (_ & Hr).
    eapply Hr. split; [vm_compute; reflexivity|]. eexists. split; vm_compute; reflexivity.
Qed.

Print Assumptions C34_found_complete.
Print Assumptions C34_found_bundles.
Print Assumptions C34_found_exact.
Print Assumptions C34_found_terminals.
Print Assumptions C34_history_complete_partial.
Print Assumptions C34_only_bundles_of_history.
Print Assumptions C34_history_exact_partial.
Print Assumptions C34_terminals_partial.
Print Assumptions C34_definitions.
Print Assumptions C34_only_ancestors_refuted.
Print Assumptions C34_all_ancestors_refuted.
Print Assumptions C34_two_seals_refuted.

(** ** C35: exporting never panics, and ends *)

(** Exporting a contract by outputs, or to a secret seal which at most one assignment per
    bundle is made to, returns a consignment or an error, or is still running. *)
Theorem C35_no_panic_partial : forall (OG : OrdKey GlobalOut) H K s fuel transfer cid outputs secret,
  collision_free H -> reachable H K s ->
  (forall x, secret = Some x -> one_terminal H s cid outputs x) ->
  consign H K fuel s transfer cid outputs secret <> Some Panic.
Proof.
  intros OG H K s fuel transfer cid outputs secret HC Re Ot.
  exact (consign_no_panic H K s cid outputs secret fuel transfer (reachable_sound H HC K s Re) Ot).
Qed.
Theorem C35_no_panic_by_outputs : forall (OG : OrdKey GlobalOut) H K s fuel transfer cid outputs,
  collision_free H -> reachable H K s -> consign H K fuel s transfer cid outputs None <> Some Panic.
Proof.
  intros OG H K s fuel transfer cid outputs HC Re.
  apply (consign_no_panic H K s cid outputs None fuel transfer (reachable_sound H HC K s Re)). discriminate.
Qed.

(** It ends, whatever is asked for. *)
Theorem C35_ends : forall (OG : OrdKey GlobalOut) H K s transfer cid outputs secret,
  collision_free H -> no_cycles H -> reachable H K s ->
  exists fuel r, forall more, consign H K (fuel + more) s transfer cid outputs secret = Some r.
Proof.
  intros OG H K s transfer cid outputs secret HC (rank & Hr) Re. apply consign_ends. exists rank. intros id t i (bid & Ki) Hin.
  rewrite <- (known_keyed H s id bid t (reachable_sound H HC K s Re) Ki). apply Hr, Hin.
Qed.

(** The number of rounds does not change what it returns. *)
Theorem C35_same_result : forall H K s fuel fuel' transfer cid outputs secret r r',
  consign H K fuel s transfer cid outputs secret = Some r -> consign H K fuel' s transfer cid outputs secret = Some r' -> r = r'.
Proof.
  intros H K s fuel fuel' transfer cid outputs secret r r' E E'.
  apply (consign_more H K s cid outputs secret fuel fuel') in E. apply (consign_more H K s cid outputs secret fuel' fuel) in E'.
  rewrite Nat.add_comm in E'. congruence.
Qed.

(** Commitments without cycles exist: in the encoding of an operation are those of its
    inputs. *)
Lemma pk_pos_gt p a : (p < pk_pos p a)%positive.
Proof. revert a. induction p as [p IH|p IH|]; intros a; cbn [pk_pos]; [specialize (IH a)|specialize (IH a)|]; lia. Qed.
Lemma pk_pos_acc p a : (a < pk_pos p a)%positive.
Proof. revert a. induction p as [p IH|p IH|]; intros a; cbn [pk_pos]; [specialize (IH a)|specialize (IH a)|]; lia. Qed.
Lemma pk_gt n l : In n l -> n < Npos (pk l).
Proof.
  induction l as [|m l IH]; intros Hin; [destruct Hin|]. destruct Hin as [->|Hin]; cbn [pk].
  - destruct n as [|p]; cbn [pk_N]; [lia|]. pose proof (pk_pos_gt p (pk l)). lia.
  - specialize (IH Hin). destruct m as [|p]; cbn [pk_N]; [lia|]. pose proof (pk_pos_acc p (pk l)). lia.
Qed.
Lemma bit_no_cycles : no_cycles bit_hashes.
Proof.
  exists N.to_nat. intros t i Hin. assert (Hl : oo_op i < op_id bit_hashes t); [|lia].
  apply pk_gt. change (In (oo_op i) (ser (conceal_op bit_hashes t))).
  cbn [ser SerOperation SerVia SerProd fst snd conceal_op set_assigns op_inputs]. do 7 (apply in_or_app; right).
  apply in_or_app. left. cbn [ser SerSet SerList]. right. apply in_flat_map. exists i. split; [exact Hin|]. left. reflexivity.
Qed.

(** Two assignments of one transition to the secret seal: the export panics. *)
Theorem C35_never_panics_refuted : forall OG : OrdKey GlobalOut, ~ forall H K s fuel transfer cid outputs secret,
  collision_free H -> no_cycles H -> proves_known K -> reachable H K s ->
  consign H K fuel s transfer cid outputs secret <> Some Panic.
Proof.
  intros OG Bad. set (a := [ConfidentialSeal cn_secret RVoid; ConfidentialSeal cn_secret RVoid]).
  refine (Bad bit_hashes cn_merkle (cn_stock [] a) O true cn_cid [] (Some cn_secret) bit_collision_free bit_no_cycles cn_proves _ _).
  - apply cn_reachable. vm_compute. reflexivity.
  - vm_compute. reflexivity.
Qed.

(** The hypothesis of [C35_no_panic_partial] holds for the example of [C34_nonvacuous]. *)
Lemma cn_terminals {OG : OrdKey GlobalOut} oo : states (sk_index (cn_stock [] cn_a)) (FTerm cn_secret oo) -> oo = cn_in (cn_id cn_a).
Proof.
  intros (s & E & Hin). assert (E2 : mget cn_secret (mi_terminals (sk_index (cn_stock [] cn_a))) = Some [cn_in (cn_id cn_a)]) by (vm_compute; reflexivity).
  rewrite E2 in E. apply Some_inj in E. subst s. destruct Hin as [<-|[]]. reflexivity.
Qed.
Example C35_nonvacuous : forall OG : OrdKey GlobalOut,
  reachable bit_hashes cn_merkle (cn_stock [] cn_a) /\ one_terminal bit_hashes (cn_stock [] cn_a) cn_cid [] cn_secret /\
  exists bid t, known_in (cn_stock [] cn_a) (cn_id cn_a) bid t /\ assigned_to bit_hashes t 4 0 cn_secret /\
    found (cn_stock [] cn_a) cn_cid [] (Some cn_secret) (cn_in (cn_id cn_a)).
Proof.
  intros OG. split; [apply cn_reachable; vm_compute; reflexivity|].
  assert (Rq : forall oo, found (cn_stock [] cn_a) cn_cid [] (Some cn_secret) oo -> oo = cn_in (cn_id cn_a)).
  { intros oo [(? & ? & [] & _)|(x & Ex & Hx)]. apply Some_inj in Ex. subst x. apply cn_terminals, Hx. }
  assert (Kt : transition (cn_stock [] cn_a) (cn_id cn_a) = Ok (cn_last bit_hashes cn_a)) by (vm_compute; reflexivity).
  split.
  - assert (As : forall ty no x, assigned_to bit_hashes (cn_last bit_hashes cn_a) ty no x -> ty = 4 /\ no = O).
    { intros ty no x (a & (ta & H1 & H2) & _). cbn in H1. destruct H1 as [H1|[]]. injection H1 as <- <-. cbn in H2.
      destruct no as [|no]; [auto|]. destruct no; discriminate H2. }
    intros bid oo t ty no oo' t' ty' no' R1 _ K1 A1 R2 _ K2 A2.
    apply Rq in R1, R2. subst oo oo'. cbn [cn_in oo_op] in *.
    assert (T1 : transition (cn_stock [] cn_a) (cn_id cn_a) = Ok t) by (apply transition_ok; exists bid; exact K1).
    assert (T2 : transition (cn_stock [] cn_a) (cn_id cn_a) = Ok t') by (apply transition_ok; exists bid; exact K2).
    rewrite Kt in T1, T2. apply Ok_inj in T1, T2. subst t t'. apply As in A1 as [-> ->], A2 as [-> ->]. auto.
  - apply transition_ok in Kt. destruct Kt as (bid & Kt). exists bid, (cn_last bit_hashes cn_a). split; [exact Kt|]. split.
    + exists (ConfidentialSeal cn_secret RVoid). split; [|reflexivity]. eexists. split; [left; reflexivity|]. reflexivity.
    + right. exists cn_secret. split; [reflexivity|]. eexists. split; [vm_compute; reflexivity|]. left. reflexivity.
Qed.

Print Assumptions C35_no_panic_partial.
Print Assumptions C35_no_panic_by_outputs.
Print Assumptions C35_ends.
Print Assumptions C35_same_result.
Print Assumptions C35_never_panics_refuted.

(** ** C36: what was accepted can be passed on *)

(** A transition which an accepted consignment reveals, in a bundle which the stock did not have, or
    had with the transition and under no other witness than those of the consignment or
    archived ones, and of which a witness is not archived, can be read back by its id, and its bundle
    with the commitment proof under which the consignment has it; the bundle contains it. *)
Theorem C36_passed_on_partial : forall (OG : OrdKey GlobalOut) H K s c r s' bid id,
  collision_free H -> proves_known K -> reachable H K s -> stock_call_ok H (SkAccept c r) ->
  accept_body H K c r s = (s', Ok tt) ->
  agreeable H s c bid id -> copies_reveal H c bid id ->
  (exists w a b ord, holds c w a b /\ bundle_id H b = bid /\ r w = Some ord /\ ord <> Archived) ->
  exists t cb, transition s' id = Ok t /\ op_id H t = id /\ client_bundle K s' bid = Ok cb /\
    mget id (b_known (cb_bundle cb)) = Some t /\
    exists w a b, holds c w a b /\ bundle_id H b = bid /\ cb_dbc cb = ea_dbc a.
Proof.
  intros OG H K s c r s' bid id HC PK Re. apply accept_pass_on; [exact HC|exact PK|]. exact (reachable_sound H HC K s Re).
Qed.

(** A transition revealed in a bundle which the stock has already, without it, is lost: the
    consignment is accepted, and the transition cannot be read. *)
Definition cn_hidden : Consignment :=
  let c := cn_cons bit_hashes [cn_other] cn_a in
  let b := {| b_method := TapretFirst; b_inputs := b_inputs (cn_bundle bit_hashes [cn_first bit_hashes; cn_other]);
              b_known := [(op_id bit_hashes (cn_first bit_hashes), cn_first bit_hashes)] |} in
  set_bundles c [cn_wb 8 b; cn_wb 9 (cn_bundle bit_hashes [cn_last bit_hashes cn_a])].
Theorem C36_all_passed_on_refuted : forall OG : OrdKey GlobalOut, ~ forall H K s c r s' w a b id,
  collision_free H -> proves_known K -> reachable H K s -> stock_call_ok H (SkAccept c r) ->
  accept_body H K c r s = (s', Ok tt) -> (forall w, r w <> None /\ r w <> Some Archived) ->
  holds c w a b -> mget id (b_known b) <> None ->
  exists t, transition s' id = Ok t.
Proof.
  intros OG Bad. set (c := cn_cons bit_hashes [cn_other] cn_a).
  set (s := stock_after bit_hashes cn_merkle sk_empty [SkAccept cn_hidden yes_witness]).
  assert (Re : reachable bit_hashes cn_merkle s).
  { exists [SkAccept cn_hidden yes_witness]. split; [|reflexivity]. intros x [<-|[]]. apply cons_okb_ok. vm_compute. reflexivity. }
  set (x := accept_body bit_hashes cn_merkle c yes_witness s).
  assert (E1 : snd x = Ok tt) by (vm_compute; reflexivity).
  assert (E2 : transition (fst x) (op_id bit_hashes cn_other) = Err (CsConcealed (bundle_id bit_hashes (cn_bundle bit_hashes [cn_first bit_hashes; cn_other])) (op_id bit_hashes cn_other))) by (vm_compute; reflexivity).
  destruct (Bad bit_hashes cn_merkle s c yes_witness (fst x) {| w_layer := Bitcoin; w_txid := 8 |}
    {| ea_mpc := 7; ea_dbc := {| dp_method := TapretFirst; dp_data := 0 |} |} (cn_bundle bit_hashes [cn_first bit_hashes; cn_other]) (op_id bit_hashes cn_other)
    bit_collision_free cn_proves Re) as [t Et].
  - apply cons_okb_ok. vm_compute. reflexivity.
  - rewrite <- E1. apply surjective_pairing.
  - intros w. split; discriminate.
  - apply holds_iff. eexists. split; [left; reflexivity|]. split; [reflexivity|]. left. reflexivity.
  - vm_compute. discriminate.
  - rewrite E2 in Et. discriminate.
Qed.

Example C36_nonvacuous : forall OG : OrdKey GlobalOut,
  let c := cn_cons bit_hashes [cn_other] cn_a in
  let b := cn_bundle bit_hashes [cn_first bit_hashes; cn_other] in
  let id := op_id bit_hashes cn_other in
  proves_known cn_merkle /\ stock_call_ok bit_hashes (SkAccept c yes_witness) /\
  snd (accept_body bit_hashes cn_merkle c yes_witness sk_empty) = Ok tt /\
  new_bundle sk_empty (bundle_id bit_hashes b) /\ copies_reveal bit_hashes c (bundle_id bit_hashes b) id /\
  (exists w a b' ord, holds c w a b' /\ bundle_id bit_hashes b' = bundle_id bit_hashes b /\ yes_witness w = Some ord /\ ord <> Archived).
Proof.
  intros OG c b id. split; [exact cn_proves|]. split; [apply cons_okb_ok; vm_compute; reflexivity|].
  split; [vm_compute; reflexivity|]. split; [split; [reflexivity|intros w (ws & E & _); discriminate]|]. split.
  - intros w a b' Hh Eb. apply holds_iff in Hh. destruct Hh as (wb & [<-|[<-|[]]] & _ & Hp); cbn in Hp; destruct Hp as [Hp|[]]; injection Hp as <- <-.
    + split; [vm_compute; discriminate|reflexivity].
    + exfalso. vm_compute in Eb. discriminate.
  - do 4 eexists. split; [apply holds_iff; eexists; split; [left; reflexivity|split; [reflexivity|left; reflexivity]]|]. split; [reflexivity|].
    split; [reflexivity|discriminate].
Qed.

Corollary C36_new_passed_on_partial : forall (OG : OrdKey GlobalOut) H K s c r s' bid id,
  collision_free H -> proves_known K -> reachable H K s -> stock_call_ok H (SkAccept c r) ->
  accept_body H K c r s = (s', Ok tt) ->
  new_bundle s bid -> copies_reveal H c bid id ->
  (exists w a b ord, holds c w a b /\ bundle_id H b = bid /\ r w = Some ord /\ ord <> Archived) ->
  exists t cb, transition s' id = Ok t /\ op_id H t = id /\ client_bundle K s' bid = Ok cb /\
    mget id (b_known (cb_bundle cb)) = Some t /\
    exists w a b, holds c w a b /\ bundle_id H b = bid /\ cb_dbc cb = ea_dbc a.
Proof. intros OG H K s c r s' bid id HC PK Re Co E Nb. eapply C36_passed_on_partial; eauto. apply new_agreeable, Nb. Qed.

(** The bundle was known under another witness, which was archived since; the consignment has it under a new one. *)
Definition cn_again : Consignment :=
  set_bundles (cn_cons bit_hashes [cn_other] cn_a)
    [cn_wb 7 (cn_bundle bit_hashes [cn_first bit_hashes; cn_other]); cn_wb 9 (cn_bundle bit_hashes [cn_last bit_hashes cn_a])].
Definition cn_replaced : Resolver := fun w => if w_txid w =? 8 then Some Archived else yes_witness w.
Example C36_known_nonvacuous : forall OG : OrdKey GlobalOut,
  let b := cn_bundle bit_hashes [cn_first bit_hashes; cn_other] in
  let id := op_id bit_hashes cn_other in
  exists s s', s = stock_after bit_hashes cn_merkle sk_empty [SkAccept (cn_cons bit_hashes [cn_other] cn_a) yes_witness; SkUpdate cn_replaced 0] /\
  stock_call_ok bit_hashes (SkAccept cn_again yes_witness) /\
  accept_body bit_hashes cn_merkle cn_again yes_witness s = (s', Ok tt) /\
  ~ new_bundle s (bundle_id bit_hashes b) /\
  agreeable bit_hashes s cn_again (bundle_id bit_hashes b) id /\ copies_reveal bit_hashes cn_again (bundle_id bit_hashes b) id.
Proof.
  intros OG b id.
  set (s := stock_after bit_hashes cn_merkle sk_empty [SkAccept (cn_cons bit_hashes [cn_other] cn_a) yes_witness; SkUpdate cn_replaced 0]).
  assert (E1 : snd (accept_body bit_hashes cn_merkle cn_again yes_witness s) = Ok tt) by (vm_compute; reflexivity).
  assert (E2 : mget (bundle_id bit_hashes b) (st_bundles (sk_stash s)) = Some b) by (vm_compute; reflexivity).
  assert (E3 : mget (bundle_id bit_hashes b) (mi_bundle_witness (sk_index s)) = Some [{| w_layer := Bitcoin; w_txid := 8 |}]) by (vm_compute; reflexivity).
  assert (E4 : mget {| w_layer := Bitcoin; w_txid := 8 |} (ms_witnesses (sk_state s)) = Some Archived) by (vm_compute; reflexivity).
  destruct (accept_body bit_hashes cn_merkle cn_again yes_witness s) as [s' r] eqn:E. cbn [snd] in E1. subst r. exists s, s'.
  split; [reflexivity|]. split; [apply cons_okb_ok; vm_compute; reflexivity|]. split; [exact E|]. split.
  { intros [Nb _]. rewrite E2 in Nb. discriminate. }
  split.
  - split.
    + intros b0 Eb. rewrite E2 in Eb. apply Some_inj in Eb. subst b0. vm_compute. discriminate.
    + intros w (ws & Ew & Hw). rewrite E3 in Ew. apply Some_inj in Ew. subst ws. destruct Hw as [<-|[]]. right. split; [exact E4|].
      intros wb [<-|[<-|[]]]; discriminate.
  - intros w a b' Hh Eb. apply holds_iff in Hh. destruct Hh as (wb & [<-|[<-|[]]] & _ & Hp); cbn in Hp; destruct Hp as [Hp|[]]; injection Hp as <- <-.
    + split; [vm_compute; discriminate|reflexivity].
    + exfalso. vm_compute in Eb. discriminate.
Qed.

Print Assumptions C36_passed_on_partial.
Print Assumptions C36_new_passed_on_partial.
Print Assumptions C36_known_nonvacuous.
Print Assumptions C36_all_passed_on_refuted.

(** ** C48: exporting a schema *)

Lemma set_by_spec {A} (key : A -> N) (l : list A) :
  (forall x, In x (set_by key l) -> In x l) /\ (forall x, In x l -> exists y, In y (set_by key l) /\ key y = key x).
Proof.
  unfold set_by. set (f := fun m x => if mhas (key x) m then m else minsert (key x) x m).
  assert (G : forall l m, msorted m -> (forall k x, mget k m = Some x -> key x = k) ->
    let r := fold_left f l m in msorted r /\ (forall k x, mget k r = Some x -> key x = k) /\
      (forall k x, mget k r = Some x -> mget k m = Some x \/ In x l) /\
      (forall x, mhas (key x) m = true \/ In x l -> mhas (key x) r = true)).
  { clear l. induction l as [|a l IH]; intros m S Km r.
    - subst r. cbn [fold_left]. repeat split; auto. intros x [Hx|[]]; exact Hx.
    - assert (S' : msorted (f m a)) by (unfold f; destruct (mhas (key a) m); [exact S|apply minsert_sorted, S]).
      assert (Km' : forall k x, mget k (f m a) = Some x -> key x = k).
      { unfold f. destruct (mhas (key a) m); [exact Km|]. intros k x. rewrite mget_insert. destruct (keqb k (key a)) eqn:E; [|apply Km].
        apply keqb_true in E. intros Ex. apply Some_inj in Ex. congruence. }
      destruct (IH _ S' Km') as (R1 & R2 & R3 & R4). subst r. cbn [fold_left]. split; [exact R1|]. split; [exact R2|]. split.
      + intros k x Ex. destruct (R3 _ _ Ex) as [E|Hin]; [|right; right; exact Hin]. revert E. unfold f.
        destruct (mhas (key a) m); [auto|]. rewrite mget_insert. destruct (keqb k (key a)); [|auto]. intros E.
        apply Some_inj in E. right. left. exact E.
      + intros x Hx. apply R4. unfold f. destruct Hx as [Hx|[->|Hx]]; [left|left|right; exact Hx].
        * destruct (mhas (key a) m); [exact Hx|]. apply mhas_true. rewrite mget_insert. destruct (keqb (key x) (key a)); [eauto|].
          apply mhas_true, Hx.
        * destruct (mhas (key x) m) eqn:E; [exact E|]. apply mhas_true. rewrite mget_insert_eq. eauto. }
  destruct (G l [] msorted_nil) as (R1 & R2 & R3 & R4); [discriminate|]. split.
  - intros x Hx. unfold mvals in Hx. apply in_map_iff in Hx as ([k y] & <- & Hin). cbn [snd].
    apply In_mget in Hin; [|exact R1]. destruct (R3 _ _ Hin) as [E|Hi]; [discriminate|exact Hi].
  - intros x Hx. specialize (R4 x (or_intror Hx)). apply mhas_true in R4 as [y Ey]. exists y.
    split; [|exact (R2 _ _ Ey)]. unfold mvals. apply in_map_iff. exists (key x, y). split; [reflexivity|apply mget_In, Ey].
Qed.

(** An exported kit: the schema, an interface for the name of each of its implementations, the
    implementations, and the types and scripts of these. *)
Theorem C48_exported_kit_partial : forall H K calls id k,
  let s := stash_after H K st_empty calls in
  export_schema s id = Ok k ->
  exists si, stash_schema s id = Ok si /\ k_schemata k = [si_schema si] /\
    (forall i, In i (k_ifaces k) <-> exists name im, mget name (si_impls si) = Some im /\ iface_by_name s name = Ok i) /\
    (forall im, In im (k_impls k) -> exists name, mget name (si_impls si) = Some im) /\
    (forall name im, mget name (si_impls si) = Some im -> exists im', In im' (k_impls k) /\ im_id im' = im_id im) /\
    (forall t v, mget t (k_types k) = Some v <->
       (In t (sch_types (si_schema si)) \/ exists i, In i (k_ifaces k) /\ In t (if_types i)) /\ mget t (st_types s) = Some v) /\
    (forall l v, mget l (k_scripts k) = Some v <-> In l (sch_libs (si_schema si)) /\ mget l (st_libs s) = Some v) /\
    k_suppl k = [] /\ k_signatures k = [].
Proof.
  intros H K calls id k s. unfold export_schema. pose proof (filed_after H K calls) as F. fold s in F.
  assert (So : stash_sorted s) by (apply sorted_after, sorted_empty).
  destruct (stash_schema s id) as [si|e|] eqn:Esi; cbn [of_stash rmap_err rbind]; try discriminate.
  destruct (ifaces_of s (si_impls si)) as [ifs|e|] eqn:Ei; cbn [rbind]; try discriminate.
  destruct (extract s (si_schema si) (map fst ifs)) as [ex|e|] eqn:Ex; cbn [rbind]; try discriminate.
  intros E. apply Ok_inj in E. subst k. cbn [k_schemata k_ifaces k_impls k_types k_scripts k_suppl k_signatures].
  exists si. split; [reflexivity|]. split; [reflexivity|].
  assert (Sm : msorted (si_impls si)).
  { unfold stash_schema in Esi. destruct (mget id (st_schemata s)) as [y|] eqn:Ey; [|discriminate Esi]. apply Ok_inj in Esi. subst y.
    eapply so_impls; eassumption. }
  assert (Il : forall i, In i (map fst ifs) <-> exists name im, mget name (si_impls si) = Some im /\ iface_by_name s name = Ok i).
  { assert (Gl : forall impls acc ifs, rfold (fun (acc : list (IfaceRec * ImplRec)) (p : N * ImplRec) =>
        let! i := of_stash (iface_by_name s (fst p)) in Ok (acc ++ [(i, snd p)])) acc impls = Ok ifs ->
      forall i, In i (map fst ifs) <-> In i (map fst acc) \/ exists name im, In (name, im) impls /\ iface_by_name s name = Ok i).
    { induction impls as [|[name im] impls IH]; intros acc ifs' E i; cbn [rfold] in E.
      - apply Ok_inj in E. subst ifs'. split; [auto|]. intros [Hi|(? & ? & [] & _)]. exact Hi.
      - cbn [fst snd] in E. unfold of_stash in E at 1. destruct (iface_by_name s name) as [j|e|] eqn:Ej; cbn [rmap_err rbind] in E; try discriminate.
        rewrite (IH _ _ E i), map_app, in_app_iff. cbn [map fst In]. split.
        + intros [[Hi|[<-|[]]]|(n' & im' & Hin & En)]; [left; exact Hi|right; exists name, im; auto|right; exists n', im'; auto].
        + intros [Hi|(n' & im' & [Hin|Hin] & En)]; [auto| |right; eauto]. injection Hin as <- <-. rewrite Ej in En. apply Ok_inj in En. auto. }
    intros i. rewrite (Gl _ _ _ Ei i). cbn [map In]. split.
    - intros [[]|(name & im & Hin & En)]. exists name, im. split; [apply In_mget; assumption|exact En].
    - intros (name & im & Hg & En). right. exists name, im. split; [apply mget_In, Hg|exact En]. }
  assert (Is : forall i, In i (set_by if_id (map fst ifs)) <-> In i (map fst ifs)).
  { destruct (set_by_spec if_id (map fst ifs)) as [S1 S2]. intros i. split; [apply S1|]. intros Hi.
    destruct (S2 i Hi) as (j & Hj & Ej). apply S1 in Hj as Hj'. apply Il in Hi, Hj'.
    destruct Hi as (n1 & im1 & _ & B1), Hj' as (n2 & im2 & _ & B2).
    assert (Bi : forall n j, iface_by_name s n = Ok j -> mget (if_id j) (st_ifaces s) = Some j).
    { intros n j' B. unfold iface_by_name in B. destruct (find _ _) as [y|] eqn:Ef; [|discriminate]. apply Ok_inj in B. subst y.
      apply find_some in Ef as [Hin _]. unfold stash_ifaces, mvals in Hin. apply in_map_iff in Hin as ([q y] & <- & Hin). cbn [snd].
      apply In_mget in Hin; [|apply So]. rewrite (fi_iface _ _ F _ _ Hin). exact Hin. }
    apply Bi in B1, B2. rewrite Ej in B2. rewrite B1 in B2. apply Some_inj in B2. congruence. }
  destruct (set_by_spec im_id (mvals (si_impls si))) as [S1 S2].
  destruct (extract_ok _ _ _ _ Ex) as (X1 & _ & X3 & _).
  split; [intros i; rewrite Is; apply Il|]. split; [|split; [|split; [|split; [exact X3|auto]]]].
  - intros im Hin. apply S1 in Hin. unfold mvals in Hin. apply in_map_iff in Hin as ([n y] & <- & Hin). exists n. apply In_mget; assumption.
  - intros name im Hg. apply S2. unfold mvals. apply in_map_iff. exists (name, im). split; [reflexivity|apply mget_In, Hg].
  - intros t v. rewrite X1, in_app_iff, in_flat_map. split; intros [[Ht|(i & Hi & Ht)] Hv]; (split; [|exact Hv]); auto; right; exists i; (split; [|exact Ht]); apply Is; exact Hi.
Qed.

(** If no two interfaces of the stash have one name, importing the exported kit does not
    panic, whatever the stash it is imported into. *)
Theorem C48_export_importable_partial : forall H K calls id k s',
  let s := stash_after H K st_empty calls in
  (forall i j, iface_by_id s (if_id i) = Ok i -> iface_by_id s (if_id j) = Ok j -> if_name i = if_name j -> i = j) ->
  export_schema s id = Ok k -> snd (consume_kit k s') <> Panic.
Proof.
  intros H K calls id k s' s Un E. apply kit_no_panic. pose proof (filed_after H K calls) as F. fold s in F.
  destruct (C48_exported_kit_partial H K calls id k E) as (si & Es & Ek & Ki & Km & _). fold s in Es, Ki. intros im Hin.
  destruct (Km im Hin) as (name & Hg).
  assert (Es' : mget id (st_schemata s) = Some si).
  { unfold stash_schema in Es. destruct (mget id (st_schemata s)); [|discriminate]. apply Ok_inj in Es. congruence. }
  destruct (fi_impl _ _ F _ _ _ _ Es' Hg) as (E1 & i & Ei & En). split.
  - left. exists (si_schema si). rewrite Ek. split; [left; reflexivity|]. rewrite E1. eapply fi_schema; eassumption.
  - left.
    assert (B : exists j, iface_by_name s name = Ok j).
    { destruct (C48_lookup H K calls 0) as (_ & _ & _ & L & _). fold s in L. rewrite <- En. apply L.
      unfold iface_by_id. rewrite (fi_iface _ _ F _ _ Ei), Ei. reflexivity. }
    destruct B as [j Bj]. exists j. split; [apply Ki; exists name, im; auto|].
    destruct (C48_lookup H K calls name) as (_ & _ & L & _). fold s in L. destruct (L j Bj) as [L1 L2].
    assert (i = j).
    { apply Un; [|exact L2|congruence]. unfold iface_by_id. rewrite (fi_iface _ _ F _ _ Ei), Ei. reflexivity. }
    subst j. exact (fi_iface _ _ F _ _ Ei).
Qed.

(** With two interfaces of one name the exported kit may contain the wrong one, and importing it
    elsewhere panics. *)
Definition kit_of_two : Kit := ex_kit [ex_iface 3 30; ex_iface 4 30] [ex_schema 5] [ex_impl 1 5 4].
Theorem C48_export_importable_refuted : ~ forall H K calls id k,
  export_schema (stash_after H K st_empty calls) id = Ok k -> snd (consume_kit k st_empty) <> Panic.
Proof.
  intros Bad.
  assert (E : exists k, export_schema (stash_after bit_hashes cn_merkle st_empty [ShKit kit_of_two]) 5 = Ok k /\ snd (consume_kit k st_empty) = Panic).
  { eexists. split; [vm_compute; reflexivity|]. vm_compute. reflexivity. }
  destruct E as (k & E1 & E2). exact (Bad _ _ _ _ _ E1 E2).
Qed.

Example C48_export_nonvacuous :
  let s := stash_after bit_hashes cn_merkle st_empty [ShKit (ex_kit [ex_iface 3 30; ex_iface 4 31] [ex_schema 5] [ex_impl 1 5 3; ex_impl 2 5 4])] in
  exists k, export_schema s 5 = Ok k /\ k_ifaces k = [ex_iface 3 30; ex_iface 4 31] /\ k_impls k = [ex_impl 1 5 3; ex_impl 2 5 4] /\
    snd (consume_kit k st_empty) = Ok tt /\
    (forall i j, iface_by_id s (if_id i) = Ok i -> iface_by_id s (if_id j) = Ok j -> if_name i = if_name j -> i = j).
Proof.
  intros s. eexists. split; [vm_compute; reflexivity|]. split; [reflexivity|]. split; [reflexivity|]. split; [vm_compute; reflexivity|].
  assert (L : forall i, iface_by_id s (if_id i) = Ok i -> i = ex_iface 3 30 \/ i = ex_iface 4 31).
  { intros i Ei. unfold iface_by_id in Ei. destruct (mget (if_id i) (st_ifaces s)) as [y|] eqn:Ey; [|discriminate Ei]. apply Ok_inj in Ei. subst y.
    apply mget_In in Ey. vm_compute in Ey. destruct Ey as [Ey|[Ey|[]]]; injection Ey as _ <-; auto. }
  intros i j Hi Hj. apply L in Hi, Hj. destruct Hi as [->| ->], Hj as [->| ->]; intros E; try reflexivity; discriminate E.
Qed.

Print Assumptions C48_exported_kit_partial.
Print Assumptions C48_export_importable_partial.
Print Assumptions C48_export_importable_refuted.
