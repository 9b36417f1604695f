(** * Passing on what was received: property theorems C67 *)
From Verif Require Import Base StM Core Ser MergeModel MergeSpec MergeProofs ContainerModel ContainerSpec ContainerProofs.
From Verif Require Import PIndexModel PIndexSpec PIndexProofs StateModel StateSpec StateProofs StashModel StashSpec StashProofs StashAgain StashProps.
From Verif Require Import StockModel StockProofs StockAgain ConsignModel ConsignSpec ConsignProofs ConsignAccept ConsignProps FasciaProps StockProps StateProps.
From Verif Require Import TransferProofs TransferSpec TransferProps ExportSpec ExportProofs ExportProps RelaySpec RelayProofs.
Local Open Scope N_scope.

(** C67: someone who starts with nothing but blinded seals and accepts what a stock exported can
    pass it on: an export of anything which comes from the history exported to them succeeds, and
    tells no more than what was received. It holds for outputs and secret seals alike, and as
    often as is wanted, since the receiver is a reachable stock again.
    Receivers who had other data before: [C67_prior_partial]. *)
Theorem C67_passed_on_partial : forall (OG : OrdKey GlobalOut) H K s fuel transfer cid outputs secret c l r r1 transfer' outputs' secret',
  collision_free H -> no_cycles H -> proves_known K -> reachable H K s ->
  consign H K fuel s transfer cid outputs secret = Some (Ok c) ->
  only_seals l -> accept_body H K c r (stock_after H K sk_empty l) = (r1, Ok tt) -> not_archived c r ->
  askable H r1 cid outputs' secret' ->
  (forall oo, found r1 cid outputs' secret' oo -> oo_op oo = cid \/ found_history s cid outputs secret (oo_op oo)) ->
  reachable H K r1 /\
  (exists fuel' c', consign H K fuel' r1 transfer' cid outputs' secret' = Some (Ok c')) /\
  forall fuel' c', consign H K fuel' r1 transfer' cid outputs' secret' = Some (Ok c') -> retold H c c'.
Proof.
  intros OG H K s fuel transfer cid outputs secret c l r r1 transfer' outputs' secret' HC Nc PK Re Ex Ol Ac Na Ak Wi.
  pose proof (blank_reachable H K l Ol) as R0. pose proof (blank_agrees H K c l Ol) as Ag.
  pose proof (relay_reachable H HC K s fuel transfer cid outputs secret c Re Ex _ R0 r r1 Ac) as R1.
  split; [exact R1|]. split.
  - apply (C63_export OG H K r1 transfer' cid outputs' secret' HC Nc R1).
    apply (relay_exportable H HC K PK s fuel transfer cid outputs secret c Re Ex _ R0 Ag r r1 Ac Na outputs' secret' Ak Wi Nc).
    apply (relay_definable H HC K s fuel transfer cid outputs secret c Re Ex l Ol r r1 Ac Nc).
  - intros fuel' c' E. exact (blank_retold H HC K s fuel transfer cid outputs secret c Re Ex l Ol r r1 Ac outputs' secret' fuel' transfer' c' Nc PK Na Wi E).
Qed.

(** The same for a receiver who had other data: other contracts, or part of this one, as long as
    what they knew of the bundles of the consignment agrees with it ([agrees]). *)
Theorem C67_prior_partial : forall (OG : OrdKey GlobalOut) H K s fuel transfer cid outputs secret c s0 r r1 transfer' outputs' secret',
  collision_free H -> no_cycles H -> proves_known K -> reachable H K s ->
  consign H K fuel s transfer cid outputs secret = Some (Ok c) ->
  collected H K s0 -> agrees H s0 c -> accept_body H K c r s0 = (r1, Ok tt) -> not_archived c r -> few_notes (sk_stash r1) ->
  askable H r1 cid outputs' secret' -> within s r1 cid outputs secret outputs' secret' ->
  collected H K r1 /\ reachable H K r1 /\
  (exists fuel' c', consign H K fuel' r1 transfer' cid outputs' secret' = Some (Ok c')) /\
  forall fuel' c', consign H K fuel' r1 transfer' cid outputs' secret' = Some (Ok c') -> retold_history H c c'.
Proof.
  intros OG H K s fuel transfer cid outputs secret c s0 r r1 transfer' outputs' secret' HC Nc PK Re Ex C0 Ag Ac Na Fn Ak Wi.
  pose proof (prior_collected H HC K s fuel transfer cid outputs secret c Re Ex s0 C0 r r1 Ac Nc) as C1.
  pose proof (collected_reachable H K s0 C0) as R0. pose proof (collected_reachable H K r1 C1) as R1.
  split; [exact C1|]. split; [exact R1|]. split.
  - apply (C63_export OG H K r1 transfer' cid outputs' secret' HC Nc R1).
    apply (relay_exportable H HC K PK s fuel transfer cid outputs secret c Re Ex _ R0 Ag r r1 Ac Na outputs' secret' Ak Wi Nc).
    exact (prior_definable H HC K s fuel transfer cid outputs secret c Re Ex s0 C0 r r1 Ac Nc Fn).
  - intros fuel' c' E. exact (relay_bundles H HC K PK s fuel transfer cid outputs secret c Re Ex _ R0 Ag r r1 Ac Na outputs' secret' Wi fuel' transfer' c' E).
Qed.

Lemma retold_history_refl H c : retold_history H c c.
Proof. constructor; eauto. Qed.
Lemma retold_history_trans H c c' c'' : retold_history H c c' -> retold_history H c' c'' -> retold_history H c c''.
Proof.
  intros A B. constructor.
  - rewrite (rh_contract _ _ _ B). apply A.
  - intros w a2 b2 Hh. destruct (rh_bundle _ _ _ B w a2 b2 Hh) as (a1 & b1 & Hh1 & E1 & D1).
    destruct (rh_bundle _ _ _ A w a1 b1 Hh1) as (a0 & b0 & Hh0 & E0 & D0). exists a0, b0. split; [exact Hh0|]. split; congruence.
  - intros wb Hw. destruct (rh_witness _ _ _ B wb Hw) as (w1 & H1 & E1). destruct (rh_witness _ _ _ A w1 H1) as (w0 & H0 & E0).
    exists w0. split; [exact H0|congruence].
Qed.

(** And through however many such hands *)
Theorem C67_among_partial : forall (OG : OrdKey GlobalOut) H K cid c0 s outputs secret c s0 r r1 transfer' outputs' secret',
  collision_free H -> no_cycles H -> proves_known K -> handed_among H K cid c0 s outputs secret c ->
  collected H K s0 -> agrees H s0 c -> accept_body H K c r s0 = (r1, Ok tt) -> not_archived c r -> few_notes (sk_stash r1) ->
  askable H r1 cid outputs' secret' -> within s r1 cid outputs secret outputs' secret' ->
  (exists fuel' c', consign H K fuel' r1 transfer' cid outputs' secret' = Some (Ok c')) /\
  forall fuel' c', consign H K fuel' r1 transfer' cid outputs' secret' = Some (Ok c') -> retold_history H c c' /\ retold_history H c0 c'.
Proof.
  intros OG H K cid c0 s outputs secret c s0 r r1 transfer' outputs' secret' HC Nc PK Hd.
  assert (X : reachable H K s /\ retold_history H c0 c /\ exists fuel transfer, consign H K fuel s transfer cid outputs secret = Some (Ok c)).
  { induction Hd as [s fuel transfer outputs secret Re E|s outputs secret c s2 r0 r2 fuel transfer outputs2 secret2 c2 _ IH C0 Ag Ac Na Fn Ak Wi E].
    - split; [exact Re|]. split; [apply retold_history_refl|]. eauto.
    - destruct IH as (Re & Rt & f & tr & Ex).
      destruct (C67_prior_partial OG H K s f tr cid outputs secret c s2 r0 r2 transfer outputs2 secret2 HC Nc PK Re Ex C0 Ag Ac Na Fn Ak Wi) as (_ & R2 & _ & T).
      split; [exact R2|]. split; [exact (retold_history_trans _ _ _ _ Rt (T _ _ E))|]. eauto. }
  destruct X as (Re & Rt & f & tr & Ex). intros C0 Ag Ac Na Fn Ak Wi.
  destruct (C67_prior_partial OG H K s f tr cid outputs secret c s0 r r1 transfer' outputs' secret' HC Nc PK Re Ex C0 Ag Ac Na Fn Ak Wi) as (_ & _ & A & T).
  split; [exact A|]. intros fuel' c' E'. split; [exact (T _ _ E')|exact (retold_history_trans _ _ _ _ Rt (T _ _ E'))].
Qed.

(** If the consignment shows only operations of the history, this is so for whatever is asked. *)
Corollary C67_whole_partial : forall (OG : OrdKey GlobalOut) H K s fuel transfer cid outputs secret c l r r1 transfer' outputs' secret',
  collision_free H -> no_cycles H -> proves_known K -> reachable H K s ->
  consign H K fuel s transfer cid outputs secret = Some (Ok c) ->
  (forall id t, reveals_op c id t -> found_history s cid outputs secret id) ->
  only_seals l -> accept_body H K c r (stock_after H K sk_empty l) = (r1, Ok tt) -> not_archived c r ->
  askable H r1 cid outputs' secret' ->
  exists fuel' c', consign H K fuel' r1 transfer' cid outputs' secret' = Some (Ok c').
Proof.
  intros OG H K s fuel transfer cid outputs secret c l r r1 transfer' outputs' secret' HC Nc PK Re Ex Hr Ol Ac Na Ak.
  eapply C67_passed_on_partial; try eassumption. intros oo Rq.
  pose proof (reachable_sound H HC K s Re) as Sd.
  destruct (consign_ok H K s cid outputs secret fuel transfer c Sd Ex) as (_ & _ & _ & _ & _ & _ & Ee & _).
  destruct (relay_found H HC K c l r r1 cid outputs' secret' oo Ol Ee (genesis_of_export H HC K fuel s transfer cid outputs secret c Re Ex) Ac Rq)
    as [E|(t & Ht)]; [left; exact E|right; eapply Hr, Ht].
Qed.

Lemma retold_refl H c : retold H c c.
Proof. constructor; eauto. Qed.
Lemma retold_trans H c c' c'' : retold H c c' -> retold H c' c'' -> retold H c c''.
Proof.
  intros A B. constructor.
  - rewrite (rt_genesis _ _ _ B). apply A.
  - rewrite (rt_schema _ _ _ B). apply A.
  - intros w a2 b2 Hh. destruct (rt_bundle _ _ _ B w a2 b2 Hh) as (a1 & b1 & Hh1 & E1 & D1).
    destruct (rt_bundle _ _ _ A w a1 b1 Hh1) as (a0 & b0 & Hh0 & E0 & D0). exists a0, b0. split; [exact Hh0|]. split; congruence.
  - intros wb Hw. destruct (rt_witness _ _ _ B wb Hw) as (w1 & H1 & E1). destruct (rt_witness _ _ _ A w1 H1) as (w0 & H0 & E0).
    exists w0. split; [exact H0|congruence].
Qed.

(** So it goes on: through however many hands a consignment went, whoever gets the last one can
    pass on what is in its history, and tells no more than the first one did. *)
Theorem C67_chain_partial : forall (OG : OrdKey GlobalOut) H K cid c0 s outputs secret c l r r1 transfer' outputs' secret',
  collision_free H -> no_cycles H -> proves_known K -> handed H K cid c0 s outputs secret c ->
  only_seals l -> accept_body H K c r (stock_after H K sk_empty l) = (r1, Ok tt) -> not_archived c r ->
  askable H r1 cid outputs' secret' -> within s r1 cid outputs secret outputs' secret' ->
  (exists fuel' c', consign H K fuel' r1 transfer' cid outputs' secret' = Some (Ok c')) /\
  forall fuel' c', consign H K fuel' r1 transfer' cid outputs' secret' = Some (Ok c') -> retold H c c' /\ retold H c0 c'.
Proof.
  intros OG H K cid c0 s outputs secret c l r r1 transfer' outputs' secret' HC Nc PK Hd.
  assert (X : reachable H K s /\ retold H c0 c /\ exists fuel transfer, consign H K fuel s transfer cid outputs secret = Some (Ok c)).
  { induction Hd as [s fuel transfer outputs secret Re E|s outputs secret c l0 r0 r2 fuel transfer outputs2 secret2 c2 _ IH Ol Ac Na Ak Wi E].
    - split; [exact Re|]. split; [apply retold_refl|]. eauto.
    - destruct IH as (Re & Rt & f & tr & Ex).
      destruct (C67_passed_on_partial OG H K s f tr cid outputs secret c l0 r0 r2 transfer outputs2 secret2 HC Nc PK Re Ex Ol Ac Na Ak Wi) as (R2 & _ & T).
      split; [exact R2|]. split; [exact (retold_trans _ _ _ _ Rt (T _ _ E))|]. eauto. }
  destruct X as (Re & Rt & f & tr & Ex). intros Ol Ac Na Ak Wi.
  destruct (C67_passed_on_partial OG H K s f tr cid outputs secret c l r r1 transfer' outputs' secret' HC Nc PK Re Ex Ol Ac Na Ak Wi) as (_ & A & T).
  split; [exact A|]. intros fuel' c' E'. split; [exact (T _ _ E')|exact (retold_trans _ _ _ _ Rt (T _ _ E'))].
Qed.

(** *** Deciding what is asked, for examples *)

Definition outs_of (s : Stock) (cid : N) : omap OutSeal (oset Opout) :=
  match mget cid (mi_contracts (sk_index s)) with Some ci => ci_outs ci | None => [] end.
Definition at_output (s : Stock) (cid : N) (o : OutSeal) : list (OutSeal * oset Opout) :=
  filter (fun p => keqb (os_outpoint (fst p)) (os_outpoint o)) (outs_of s cid).

Lemma out_at s cid out oo o : states (sk_index s) (FOut cid out oo) -> os_outpoint out = os_outpoint o ->
  exists set, In (out, set) (at_output s cid o) /\ In oo set.
Proof.
  intros (ci & set & Ec & Es & Hin) Eo. exists set. split; [|exact Hin]. unfold at_output, outs_of. rewrite Ec.
  apply filter_In. split; [apply mget_In, Es|]. cbn [fst]. rewrite Eo. apply keqb_refl.
Qed.

Lemma askable_one H s cid o out set oo : at_output s cid o = [(out, oo :: set)] -> wf (sk_index s) -> askable H s cid [o] None.
Proof.
  intros E W. constructor.
  - intros o' [<-|[]]. assert (Hin : In (out, oo :: set) (at_output s cid o)) by (rewrite E; left; reflexivity).
    unfold at_output in Hin. apply filter_In in Hin as [Hin Eo]. cbn [fst] in Eo. apply keqb_true in Eo. exists out, oo. split; [exact Eo|].
    unfold outs_of in Hin. destruct (mget cid (mi_contracts (sk_index s))) as [ci|] eqn:Ec; [|destruct Hin].
    exists ci, (oo :: set). split; [exact Ec|]. split; [|left; reflexivity]. apply In_mget; [|exact Hin]. apply (wf_ci _ W _ _ Ec).
  - discriminate.
  - intros ws _ Hw. destruct ws as [|w ws]; [unfold len; cbn; lia|]. destruct (Hw w (or_introl eq_refl)) as (x & oo' & t & ty & no & F & _). discriminate.
Qed.

(** *** Examples: the payee of C62 can pass on what they received. *)
Definition rl_out : OutSeal := {| os_layer := Bitcoin; os_method := TapretFirst; os_txid := 10; os_vout := 1 |}.

Example C67_nonvacuous : forall OG : OrdKey GlobalOut, exists c r1,
  consign bit_hashes cn_merkle 10 tx_paid true cn_cid [] (Some (h_seal bit_hashes ex_secret)) = Some (Ok c) /\
  only_seals [SkSeal ex_secret] /\
  accept_body bit_hashes cn_merkle c yes_witness (stock_after bit_hashes cn_merkle sk_empty [SkSeal ex_secret]) = (r1, Ok tt) /\
  not_archived c yes_witness /\ askable bit_hashes r1 cn_cid [rl_out] None /\
  (forall oo, found r1 cn_cid [rl_out] None oo -> oo_op oo = cn_cid \/ found_history tx_paid cn_cid [] (Some (h_seal bit_hashes ex_secret)) (oo_op oo)) /\
  exists fuel c', consign bit_hashes cn_merkle fuel r1 true cn_cid [rl_out] None = Some (Ok c') /\ length (c_bundles c') = 3%nat /\ retold bit_hashes c c'.
Proof.
  intros OG. pose proof (tx_paid_reachable (OG := OG)) as Rp. pose proof bit_collision_free as HC.
  assert (E : match consign bit_hashes cn_merkle 10 tx_paid true cn_cid [] (Some (h_seal bit_hashes ex_secret)) with
    | Some (Ok c) => match accept_body bit_hashes cn_merkle c yes_witness (stock_after bit_hashes cn_merkle sk_empty [SkSeal ex_secret]) with
                     | (r1, Ok _) => match at_output r1 cn_cid rl_out with
                                     | [(out, oo :: set)] => forallb (fun x => oo_op x =? tx_id) (oo :: set) && match consign bit_hashes cn_merkle 10 r1 true cn_cid [rl_out] None with
                                                         | Some (Ok c') => Nat.eqb (length (c_bundles c')) 3 | _ => false end
                                     | _ => false end
                     | _ => false end
    | _ => false end = true) by (vm_compute; reflexivity).
  assert (Ft : existsb (fun p => (fst p =? h_seal bit_hashes ex_secret) && existsb (fun oo => oo_op oo =? tx_id) (snd p)) (mi_terminals (sk_index tx_paid)) = true)
    by (vm_compute; reflexivity).
  destruct (consign bit_hashes cn_merkle 10 tx_paid true cn_cid [] (Some (h_seal bit_hashes ex_secret))) as [[c|e|]|] eqn:Ec; try discriminate E.
  destruct (accept_body bit_hashes cn_merkle c yes_witness _) as [r1 [[]|e|]] eqn:Ea; try discriminate E.
  exists c, r1. split; [reflexivity|].
  assert (Ol : only_seals [SkSeal ex_secret]) by (intros d [<-|[]]; right; eauto).
  assert (Na : not_archived c yes_witness) by (intros wb _; discriminate).
  split; [exact Ol|]. split; [exact Ea|]. split; [exact Na|].
  destruct (at_output r1 cn_cid rl_out) as [|[out [|oo set]] [|]] eqn:Eo; try discriminate E. apply andb_prop in E as [E1 E2].
  pose proof (relay_reachable bit_hashes HC cn_merkle tx_paid 10 true cn_cid [] _ c Rp Ec _ (blank_reachable bit_hashes cn_merkle _ Ol) yes_witness r1 Ea) as R1.
  assert (Ak : askable bit_hashes r1 cn_cid [rl_out] None) by (eapply askable_one; [exact Eo|apply (reachable_sound bit_hashes HC cn_merkle r1 R1)]).
  assert (Wi : forall oo, found r1 cn_cid [rl_out] None oo -> oo_op oo = cn_cid \/ found_history tx_paid cn_cid [] (Some (h_seal bit_hashes ex_secret)) (oo_op oo)).
  { intros oo0 [(out0 & o & [<-|[]] & Eq & F & _)|(x & F & _)]; [|discriminate]. right.
    destruct (out_at _ _ _ _ _ F Eq) as (set0 & I0 & I1). rewrite Eo in I0. destruct I0 as [I0|[]]. injection I0 as <- <-.
    rewrite forallb_forall in E1. specialize (E1 _ I1). apply N.eqb_eq in E1. rewrite E1.
    apply existsb_exists in Ft as ([x ts] & Hx & Ft). cbn [fst snd] in Ft. apply andb_prop in Ft as [F1 F2]. apply N.eqb_eq in F1. subst x.
    apply existsb_exists in F2 as (oo1 & I2 & E2'). apply N.eqb_eq in E2'. apply reached_start; [|vm_compute; discriminate].
    exists oo1. split; [|exact E2']. right. exists (h_seal bit_hashes ex_secret). split; [reflexivity|]. exists ts. split; [|exact I2].
    apply In_mget; [|exact Hx]. apply (sd_index _ _ (reachable_sound bit_hashes HC cn_merkle tx_paid Rp)). }
  split; [exact Ak|]. split; [exact Wi|].
  destruct (C67_passed_on_partial OG bit_hashes cn_merkle tx_paid 10 true cn_cid [] _ c _ yes_witness r1 true [rl_out] None
    HC bit_no_cycles cn_proves Rp Ec Ol Ea Na Ak Wi) as (_ & _ & Rt).
  destruct (consign bit_hashes cn_merkle 10 r1 true cn_cid [rl_out] None) as [[c'|e|]|] eqn:Ec'; try discriminate E2.
  exists 10%nat, c'. split; [exact Ec'|]. split; [apply Nat.eqb_eq, E2|eapply Rt, Ec'].
Qed.

(** The payee of C62 has passed on what they received. *)
Example C67_chain_nonvacuous : forall OG : OrdKey GlobalOut, exists c0 r1 c1,
  handed bit_hashes cn_merkle cn_cid c0 r1 [rl_out] None c1 /\ length (c_bundles c1) = 3%nat.
Proof.
  intros OG. destruct (C67_nonvacuous OG) as (c & r1 & Ec & Ol & Ea & Na & Ak & Wi & fuel & c' & E' & L & _).
  exists c, r1, c'. split; [|exact L].
  eapply handed_on; [|exact Ol|exact Ea|exact Na|exact Ak|exact Wi|exact E'].
  eapply handed_first; [apply tx_paid_reachable|exact Ec].
Qed.

(** *** A receiver who had another contract and the beginning of this one *)

Definition agreesb (H : Hashes) (s : Stock) (c : Consignment) : bool :=
  forallb (fun wb => forallb (fun p => let b := snd p in let bid := bundle_id H b in
    forallb (fun id => match mget bid (st_bundles (sk_stash s)) with Some b0 => mhas id (b_known b0) | None => true end) (mkeys (b_known b)) &&
    forallb (fun w => existsb (fun wb' => keqb (wb_id wb') w && existsb (fun q => bundle_id H (snd q) =? bid) (anchored_iter (wb_bundles wb'))) (c_bundles c))
      (match mget bid (mi_bundle_witness (sk_index s)) with Some ws => ws | None => [] end))
    (anchored_iter (wb_bundles wb))) (c_bundles c).
Lemma agreesb_ok H s c : agreesb H s c = true -> agrees H s c.
Proof.
  intros E w a b id Hh Hk. apply holds_iff in Hh as (wb & Hin & Ew & Hp). unfold agreesb in E. rewrite forallb_forall in E. specialize (E _ Hin).
  rewrite forallb_forall in E. specialize (E _ Hp). cbv zeta in E. cbn [snd] in E. apply andb_prop in E as [E1 E2]. split.
  - intros b0 Eb. rewrite Eb, forallb_forall in E1. destruct (mget id (b_known b)) as [t|] eqn:Et; [|congruence]. apply mget_In in Et.
    specialize (E1 id (in_map fst _ _ Et)). unfold mhas in E1. destruct (mget id (b_known b0)); [discriminate|discriminate E1].
  - intros w0 (ws & Es & Hw). left. rewrite Es, forallb_forall in E2. specialize (E2 _ Hw). apply existsb_exists in E2 as (wb' & Hin' & E2).
    apply andb_prop in E2 as [E2 E3]. apply keqb_true in E2. apply existsb_exists in E3 as ([a' b'] & Hq & E3). cbn [snd] in E3. apply N.eqb_eq in E3.
    exists a', b'. split; [|exact E3]. apply holds_iff. exists wb'. auto.
Qed.

Lemma few_notes_ok s : len (st_sigs s) <=? U8MAX = true -> len (flat_map snd (st_suppl s)) <=? U8MAX = true -> few_notes s.
Proof.
  intros L1 L2. apply N.leb_le in L1, L2. split.
  - apply (at_most_incl _ _ (map fst (st_sigs s))); [|unfold len in *; rewrite map_length; exact L1].
    intros ct Hn. destruct (mget ct (st_sigs s)) as [x|] eqn:Ex; [|congruence]. apply mget_In in Ex. apply (in_map fst _ _ Ex).
  - apply (at_most_incl _ _ (flat_map snd (st_suppl s))); [|exact L2]. intros x (ct & more & Hx). apply mget_In in Hx.
    apply in_flat_map. eexists. split; [exact Hx|left; reflexivity].
Qed.

Definition rl_part : Consignment :=
  set_bundles (cn_cons bit_hashes [] tx_own) [cn_wb 8 (cn_bundle bit_hashes [cn_first bit_hashes])].
Definition rl_elsewhere : Consignment :=
  {| c_transfer := false; c_terminals := []; c_genesis := cn_op OpGenesis 6 [] [Revealed (cn_seal 110 0) RVoid];
     c_extensions := []; c_schema := {| sch_id := 6; sch_globals := []; sch_libs := []; sch_types := [2] |};
     c_ifaces := []; c_supplements := []; c_bundles := [];
     c_types := [(2, 22)]; c_scripts := []; c_attachments := []; c_signatures := [] |}.
Definition rl_before {OG : OrdKey GlobalOut} : Stock :=
  stock_after bit_hashes cn_merkle sk_empty [SkAccept rl_part yes_witness; SkAccept rl_elsewhere yes_witness; SkSeal ex_secret].

Lemma rl_before_collected {OG : OrdKey GlobalOut} : collected bit_hashes cn_merkle rl_before.
Proof.
  unfold rl_before, stock_after. cbn [fold_left].
  assert (Cp : complete_kit (kit_of rl_part)).
  { constructor; cbn.
    - intros sc id [<-|[]] [<-|[]]. discriminate.
    - intros i id [<-|[]]. cbn. intros [].
    - intros sc id [<-|[]] [<-|[]]. discriminate.
    - intros sc [<-|[]]. apply (at_most_incl _ _ [6]); [intros x Hx; exact Hx|vm_compute; discriminate]. }
  assert (Ce : complete_kit (kit_of rl_elsewhere)).
  { constructor; cbn.
    - intros sc id [<-|[]] [<-|[]]. discriminate.
    - intros i id [].
    - intros sc id [<-|[]] [].
    - intros sc [<-|[]]. apply (at_most_incl _ _ []); [intros x Hx; exact Hx|vm_compute; discriminate]. }
  apply (col_other bit_hashes cn_merkle _ (SkSeal ex_secret)); [|exact Logic.I|exact Logic.I].
  assert (E1 : snd (accept_body bit_hashes cn_merkle rl_part yes_witness sk_empty) = Ok tt) by (vm_compute; reflexivity).
  assert (E2 : snd (accept_body bit_hashes cn_merkle rl_elsewhere yes_witness (fst (accept_body bit_hashes cn_merkle rl_part yes_witness sk_empty))) = Ok tt)
    by (vm_compute; reflexivity).
  cbn [stock_body]. destruct (accept_body bit_hashes cn_merkle rl_part yes_witness sk_empty) as [s1 x1] eqn:A1. cbn [fst snd] in *. subst x1.
  assert (C1 : collected bit_hashes cn_merkle s1).
  { eapply col_accept; [apply col_nothing| |exact Cp|exact A1]. apply cons_okb_ok. vm_compute. reflexivity. }
  destruct (accept_body bit_hashes cn_merkle rl_elsewhere yes_witness s1) as [s2 x2] eqn:A2. cbn [fst snd] in *. subst x2.
  eapply col_accept; [exact C1| |exact Ce|exact A2]. apply cons_okb_ok. vm_compute. reflexivity.
Qed.

Example C67_prior_nonvacuous : forall OG : OrdKey GlobalOut, exists c r1,
  consign bit_hashes cn_merkle 10 tx_paid true cn_cid [] (Some (h_seal bit_hashes ex_secret)) = Some (Ok c) /\
  collected bit_hashes cn_merkle rl_before /\ agrees bit_hashes rl_before c /\
  (exists bid, ~ new_bundle rl_before bid /\ exists w a b, holds c w a b /\ bundle_id bit_hashes b = bid) /\
  accept_body bit_hashes cn_merkle c yes_witness rl_before = (r1, Ok tt) /\
  not_archived c yes_witness /\ few_notes (sk_stash r1) /\ askable bit_hashes r1 cn_cid [rl_out] None /\
  within tx_paid r1 cn_cid [] (Some (h_seal bit_hashes ex_secret)) [rl_out] None /\
  exists fuel c', consign bit_hashes cn_merkle fuel r1 true cn_cid [rl_out] None = Some (Ok c') /\ length (c_bundles c') = 3%nat /\ retold_history bit_hashes c c'.
Proof.
  intros OG. pose proof (tx_paid_reachable (OG := OG)) as Rp. pose proof bit_collision_free as HC.
  pose proof (rl_before_collected (OG := OG)) as C0.
  assert (E : match consign bit_hashes cn_merkle 10 tx_paid true cn_cid [] (Some (h_seal bit_hashes ex_secret)) with
    | Some (Ok c) => agreesb bit_hashes rl_before c &&
                     match c_bundles c with wb :: _ => match anchored_iter (wb_bundles wb) with p :: _ => mhas (bundle_id bit_hashes (snd p)) (st_bundles (sk_stash rl_before)) | _ => false end | _ => false end &&
                     match accept_body bit_hashes cn_merkle c yes_witness rl_before with
                     | (r1, Ok _) => (len (st_sigs (sk_stash r1)) <=? U8MAX) && (len (flat_map snd (st_suppl (sk_stash r1))) <=? U8MAX) &&
                                     match at_output r1 cn_cid rl_out with
                                     | [(out, oo :: set)] => forallb (fun x => oo_op x =? tx_id) (oo :: set) && match consign bit_hashes cn_merkle 10 r1 true cn_cid [rl_out] None with
                                                         | Some (Ok c') => Nat.eqb (length (c_bundles c')) 3 | _ => false end
                                     | _ => false end
                     | _ => false end
    | _ => false end = true) by (vm_compute; reflexivity).
  assert (Ft : existsb (fun p => (fst p =? h_seal bit_hashes ex_secret) && existsb (fun oo => oo_op oo =? tx_id) (snd p)) (mi_terminals (sk_index tx_paid)) = true)
    by (vm_compute; reflexivity).
  generalize dependent (rl_before (OG := OG)). intros s0 C0 E.
  destruct (consign bit_hashes cn_merkle 10 tx_paid true cn_cid [] (Some (h_seal bit_hashes ex_secret))) as [[c|e|]|] eqn:Ec; try discriminate E.
  apply andb_prop in E as [E E3]. apply andb_prop in E as [Eag Enb]. apply agreesb_ok in Eag.
  destruct (accept_body bit_hashes cn_merkle c yes_witness s0) as [r1 [[]|e|]] eqn:Ea; try discriminate E3.
  apply andb_prop in E3 as [Ef E]. apply andb_prop in Ef as [Ef1 Ef2].
  exists c, r1. split; [reflexivity|]. split; [exact C0|]. split; [exact Eag|].
  assert (Na : not_archived c yes_witness) by (intros wb _; discriminate).
  assert (Fn : few_notes (sk_stash r1)) by (apply few_notes_ok; assumption).
  split.
  { destruct (c_bundles c) as [|wb wbs] eqn:Ebs; [discriminate|]. destruct (anchored_iter (wb_bundles wb)) as [|[a b] l] eqn:Eai; [discriminate|]. cbn [snd] in Enb.
    exists (bundle_id bit_hashes b). split.
    - intros [Nb _]. unfold mhas in Enb. rewrite Nb in Enb. discriminate.
    - exists (wb_id wb), a, b. split; [|reflexivity]. apply holds_iff. exists wb. rewrite Ebs, Eai. split; [left; reflexivity|]. split; [reflexivity|left; reflexivity]. }
  split; [exact Ea|]. split; [exact Na|]. split; [exact Fn|].
  destruct (at_output r1 cn_cid rl_out) as [|[out [|oo set]] [|]] eqn:Eo; try discriminate E. apply andb_prop in E as [E1 E2].
  pose proof (relay_reachable bit_hashes HC cn_merkle tx_paid 10 true cn_cid [] _ c Rp Ec _ (collected_reachable _ _ _ C0) yes_witness r1 Ea) as R1.
  assert (Ak : askable bit_hashes r1 cn_cid [rl_out] None) by (eapply askable_one; [exact Eo|apply (reachable_sound bit_hashes HC cn_merkle r1 R1)]).
  assert (Wi : within tx_paid r1 cn_cid [] (Some (h_seal bit_hashes ex_secret)) [rl_out] None).
  { intros oo0 [(out0 & o & [<-|[]] & Eq & F & _)|(x & F & _)]; [|discriminate]. right.
    destruct (out_at _ _ _ _ _ F Eq) as (set0 & I0 & I1). rewrite Eo in I0. destruct I0 as [I0|[]]. injection I0 as <- <-.
    rewrite forallb_forall in E1. specialize (E1 _ I1). apply N.eqb_eq in E1. rewrite E1.
    apply existsb_exists in Ft as ([x ts] & Hx & Ft). cbn [fst snd] in Ft. apply andb_prop in Ft as [F1 F2]. apply N.eqb_eq in F1. subst x.
    apply existsb_exists in F2 as (oo1 & I2 & E2'). apply N.eqb_eq in E2'. apply reached_start; [|vm_compute; discriminate].
    exists oo1. split; [|exact E2']. right. exists (h_seal bit_hashes ex_secret). split; [reflexivity|]. exists ts. split; [|exact I2].
    apply In_mget; [|exact Hx]. apply (sd_index _ _ (reachable_sound bit_hashes HC cn_merkle tx_paid Rp)). }
  split; [exact Ak|]. split; [exact Wi|].
  destruct (C67_prior_partial OG bit_hashes cn_merkle tx_paid 10 true cn_cid [] _ c s0 yes_witness r1 true [rl_out] None
    HC bit_no_cycles cn_proves Rp Ec C0 Eag Ea Na Fn Ak Wi) as (_ & _ & _ & Rt).
  destruct (consign bit_hashes cn_merkle 10 r1 true cn_cid [rl_out] None) as [[c'|e|]|] eqn:Ec'; try discriminate E2.
  exists 10%nat, c'. split; [exact Ec'|]. split; [apply Nat.eqb_eq, E2|eapply Rt, Ec'].
Qed.

(** *** What was known before must agree *)

(** The receiver knew the bundle of the first transition with another of its transitions only. *)
Definition rl_other : Consignment :=
  set_bundles (cn_cons bit_hashes [cn_other] cn_a)
    [cn_wb 8 {| b_method := TapretFirst; b_inputs := b_inputs (cn_bundle bit_hashes [cn_first bit_hashes; cn_other]);
                b_known := [(op_id bit_hashes cn_other, cn_other)] |}].
Definition rl_knew {OG : OrdKey GlobalOut} : Stock :=
  stock_after bit_hashes cn_merkle sk_empty [SkAccept rl_other yes_witness; SkSeal ex_secret].
Definition rl_out9 : OutSeal := {| os_layer := Bitcoin; os_method := TapretFirst; os_txid := 9; os_vout := 1 |}.

Lemma rl_knew_collected {OG : OrdKey GlobalOut} : collected bit_hashes cn_merkle rl_knew.
Proof.
  unfold rl_knew, stock_after. cbn [fold_left].
  assert (Cp : complete_kit (kit_of rl_other)).
  { constructor; cbn.
    - intros sc id [<-|[]] [<-|[]]. discriminate.
    - intros i id [<-|[]]. cbn. intros [].
    - intros sc id [<-|[]] [<-|[]]. discriminate.
    - intros sc [<-|[]]. apply (at_most_incl _ _ [6]); [intros x Hx; exact Hx|vm_compute; discriminate]. }
  apply (col_other bit_hashes cn_merkle _ (SkSeal ex_secret)); [|exact Logic.I|exact Logic.I].
  assert (E1 : snd (accept_body bit_hashes cn_merkle rl_other yes_witness sk_empty) = Ok tt) by (vm_compute; reflexivity).
  cbn [stock_body]. destruct (accept_body bit_hashes cn_merkle rl_other yes_witness sk_empty) as [s1 x1] eqn:A1. cbn [fst snd] in *. subst x1.
  eapply col_accept; [apply col_nothing| |exact Cp|exact A1]. apply cons_okb_ok. vm_compute. reflexivity.
Qed.

(** What such a receiver is paid is accepted, and they cannot pass it on: the first transition is
    not taken into the bundle they knew. *)
Theorem C67_prior_refuted : forall OG : OrdKey GlobalOut, ~ forall H K s fuel transfer cid outputs secret c s0 r r1 transfer' outputs' secret',
  collision_free H -> no_cycles H -> proves_known K -> reachable H K s ->
  consign H K fuel s transfer cid outputs secret = Some (Ok c) ->
  collected H K s0 -> accept_body H K c r s0 = (r1, Ok tt) -> not_archived c r -> few_notes (sk_stash r1) ->
  askable H r1 cid outputs' secret' -> within s r1 cid outputs secret outputs' secret' ->
  exists fuel' c', consign H K fuel' r1 transfer' cid outputs' secret' = Some (Ok c').
Proof.
  intros OG X. pose proof bit_collision_free as HC. pose proof (rl_knew_collected (OG := OG)) as C0.
  assert (Rp : reachable bit_hashes cn_merkle (cn_stock [cn_other] cn_a)) by (apply cn_reachable; vm_compute; reflexivity).
  assert (E : match consign bit_hashes cn_merkle 10 (cn_stock [cn_other] cn_a) true cn_cid [] (Some cn_secret) with
    | Some (Ok c) => match accept_body bit_hashes cn_merkle c yes_witness rl_knew with
                     | (r1, Ok _) => (len (st_sigs (sk_stash r1)) <=? U8MAX) && (len (flat_map snd (st_suppl (sk_stash r1))) <=? U8MAX) &&
                                     match at_output r1 cn_cid rl_out9 with
                                     | [(out, oo :: set)] => forallb (fun x => oo_op x =? cn_id cn_a) (oo :: set) && match consign bit_hashes cn_merkle 10 r1 true cn_cid [rl_out9] None with
                                                         | Some (Err _) => true | _ => false end
                                     | _ => false end
                     | _ => false end
    | _ => false end = true) by (vm_compute; reflexivity).
  assert (Ft : existsb (fun p => (fst p =? cn_secret) && existsb (fun oo => oo_op oo =? cn_id cn_a) (snd p)) (mi_terminals (sk_index (cn_stock [cn_other] cn_a))) = true)
    by (vm_compute; reflexivity).
  generalize dependent (rl_knew (OG := OG)). intros s0 C0 E.
  destruct (consign bit_hashes cn_merkle 10 (cn_stock [cn_other] cn_a) true cn_cid [] (Some cn_secret)) as [[c|e|]|] eqn:Ec; try discriminate E.
  destruct (accept_body bit_hashes cn_merkle c yes_witness s0) as [r1 [[]|e|]] eqn:Ea; try discriminate E.
  apply andb_prop in E as [Ef E]. apply andb_prop in Ef as [Ef1 Ef2].
  assert (Na : not_archived c yes_witness) by (intros wb _; discriminate).
  assert (Fn : few_notes (sk_stash r1)) by (apply few_notes_ok; assumption).
  destruct (at_output r1 cn_cid rl_out9) as [|[out [|oo set]] [|]] eqn:Eo; try discriminate E. apply andb_prop in E as [E1 E2].
  pose proof (relay_reachable bit_hashes HC cn_merkle _ 10 true cn_cid [] _ c Rp Ec _ (collected_reachable _ _ _ C0) yes_witness r1 Ea) as R1.
  assert (Ak : askable bit_hashes r1 cn_cid [rl_out9] None) by (eapply askable_one; [exact Eo|apply (reachable_sound bit_hashes HC cn_merkle r1 R1)]).
  assert (Wi : within (cn_stock [cn_other] cn_a) r1 cn_cid [] (Some cn_secret) [rl_out9] None).
  { intros oo0 [(out0 & o & [<-|[]] & Eq & F & _)|(x & F & _)]; [|discriminate]. right.
    destruct (out_at _ _ _ _ _ F Eq) as (set0 & I0 & I1). rewrite Eo in I0. destruct I0 as [I0|[]]. injection I0 as <- <-.
    rewrite forallb_forall in E1. specialize (E1 _ I1). apply N.eqb_eq in E1. rewrite E1.
    apply existsb_exists in Ft as ([x ts] & Hx & Ft). cbn [fst snd] in Ft. apply andb_prop in Ft as [F1 F2]. apply N.eqb_eq in F1. subst x.
    apply existsb_exists in F2 as (oo1 & I2 & E2'). apply N.eqb_eq in E2'. apply reached_start; [|vm_compute; discriminate].
    exists oo1. split; [|exact E2']. right. exists cn_secret. split; [reflexivity|]. exists ts. split; [|exact I2].
    apply In_mget; [|exact Hx]. apply (sd_index _ _ (reachable_sound bit_hashes HC cn_merkle _ Rp)). }
  destruct (consign bit_hashes cn_merkle 10 r1 true cn_cid [rl_out9] None) as [[c'|e|]|] eqn:Ec'; try discriminate E2.
  destruct (X bit_hashes cn_merkle _ 10%nat true cn_cid [] (Some cn_secret) c s0 yes_witness r1 true [rl_out9] None HC bit_no_cycles cn_proves Rp Ec C0 Ea Na Fn Ak Wi)
    as (fuel' & c1 & X1).
  exact (proj2 (C63_failed OG bit_hashes cn_merkle r1 true true cn_cid [rl_out9] None 10 _ HC bit_no_cycles R1 Ec' eq_refl) _ _ X1).
Qed.

(** *** What is shown beside the history cannot always be passed on *)

(** A contract with two outputs, each spent by a transition; the outputs of these are spent in
    one bundle, one of them for the secret seal. *)
Definition rl_genesis : Operation := cn_op OpGenesis 5 [] [Revealed (cn_seal 100 0) RVoid; Revealed (cn_seal 100 1) RVoid].
Definition rl_cid : N := op_id bit_hashes rl_genesis.
Definition rl_first (no : N) : Operation :=
  cn_op OpTransition 2 [{| oo_op := rl_cid; oo_ty := 4; oo_no := no |}] [Revealed (cn_seal 101 no) RVoid].
Definition rl_paid : Operation := cn_op OpTransition 2 [cn_in (op_id bit_hashes (rl_first 0))] [ConfidentialSeal cn_secret RVoid].
Definition rl_kept : Operation := cn_op OpTransition 2 [cn_in (op_id bit_hashes (rl_first 1))] [Revealed (cn_seal 103 7) RVoid].
Definition rl_cons : Consignment :=
  {| c_transfer := true; c_terminals := []; c_genesis := rl_genesis;
     c_extensions := []; c_schema := {| sch_id := 5; sch_globals := []; sch_libs := []; sch_types := [] |};
     c_ifaces := []; c_supplements := [];
     c_bundles := [cn_wb 8 (cn_bundle bit_hashes [rl_first 0]); cn_wb 9 (cn_bundle bit_hashes [rl_first 1]);
                   cn_wb 10 (cn_bundle bit_hashes [rl_paid; rl_kept])];
     c_types := []; c_scripts := []; c_attachments := []; c_signatures := [] |}.
Definition rl_stock {OG : OrdKey GlobalOut} : Stock := stock_after bit_hashes cn_merkle sk_empty [SkAccept rl_cons yes_witness].
Definition rl_seal : OutSeal := {| os_layer := Bitcoin; os_method := TapretFirst; os_txid := 103; os_vout := 7 |}.

(** The receiver knows that the other transition of the bundle has an output, for it was shown
    to them; its history was not, and an export of that output fails for them and not for the sender. *)
Theorem C67_everything_refuted : forall OG : OrdKey GlobalOut, ~ forall H K s fuel transfer cid outputs secret c l r r1 transfer' outputs' secret',
  collision_free H -> no_cycles H -> proves_known K -> reachable H K s ->
  consign H K fuel s transfer cid outputs secret = Some (Ok c) ->
  only_seals l -> accept_body H K c r (stock_after H K sk_empty l) = (r1, Ok tt) -> not_archived c r ->
  askable H r1 cid outputs' secret' -> exportable H K s cid outputs' secret' ->
  exists fuel' c', consign H K fuel' r1 transfer' cid outputs' secret' = Some (Ok c').
Proof.
  intros OG X. pose proof bit_collision_free as HC.
  assert (Rs : reachable bit_hashes cn_merkle rl_stock).
  { exists [SkAccept rl_cons yes_witness]. split; [|reflexivity]. intros c [<-|[]]. apply cons_okb_ok. vm_compute. reflexivity. }
  assert (E : match consign bit_hashes cn_merkle 10 rl_stock true rl_cid [] (Some cn_secret) with
    | Some (Ok c) => match accept_body bit_hashes cn_merkle c yes_witness sk_empty with
                     | (r1, Ok _) => match at_output r1 rl_cid rl_seal with
                                     | [(out, oo :: set)] => match consign bit_hashes cn_merkle 10 r1 true rl_cid [rl_seal] None with
                                                         | Some (Err _) => true | _ => false end
                                     | _ => false end
                     | _ => false end
    | _ => false end = true) by (vm_compute; reflexivity).
  assert (E' : match consign bit_hashes cn_merkle 10 rl_stock true rl_cid [rl_seal] None with Some (Ok _) => true | _ => false end = true)
    by (vm_compute; reflexivity).
  destruct (consign bit_hashes cn_merkle 10 rl_stock true rl_cid [] (Some cn_secret)) as [[c|e|]|] eqn:Ec; try discriminate E.
  destruct (accept_body bit_hashes cn_merkle c yes_witness sk_empty) as [r1 [[]|e|]] eqn:Ea; try discriminate E.
  destruct (at_output r1 rl_cid rl_seal) as [|[out [|oo set]] [|]] eqn:Eo; try discriminate E.
  destruct (consign bit_hashes cn_merkle 10 r1 true rl_cid [rl_seal] None) as [[|e|]|] eqn:Ef; try discriminate E.
  destruct (consign bit_hashes cn_merkle 10 rl_stock true rl_cid [rl_seal] None) as [[c'|? |]|] eqn:Ec'; try discriminate E'.
  assert (Ol : only_seals []) by (intros d []).
  pose proof (relay_reachable bit_hashes HC cn_merkle rl_stock 10 true rl_cid [] _ c Rs Ec _ (blank_reachable bit_hashes cn_merkle _ Ol) yes_witness r1 Ea) as R1.
  assert (Ak : askable bit_hashes r1 rl_cid [rl_seal] None) by (eapply askable_one; [exact Eo|apply (reachable_sound bit_hashes HC cn_merkle r1 R1)]).
  destruct (X bit_hashes cn_merkle rl_stock 10%nat true rl_cid [] (Some cn_secret) c [] yes_witness r1 true [rl_seal] None HC bit_no_cycles cn_proves Rs)
    as (fuel' & c1 & E1); [exact Ec|exact Ol|exact Ea| |exact Ak| |].
  - intros wb _. discriminate.
  - apply (C63_export OG bit_hashes cn_merkle rl_stock true rl_cid [rl_seal] None HC bit_no_cycles Rs). eauto.
  - refine (proj2 (C63_failed OG bit_hashes cn_merkle r1 true true rl_cid [rl_seal] None 10 _ HC bit_no_cycles R1 Ef eq_refl) _ _ E1).
Qed.

Print Assumptions C67_passed_on_partial.
Print Assumptions C67_whole_partial.
Print Assumptions C67_chain_partial.
Print Assumptions C67_prior_partial.
Print Assumptions C67_among_partial.
Print Assumptions C67_prior_nonvacuous.
Print Assumptions C67_prior_refuted.
Print Assumptions C67_chain_nonvacuous.
Print Assumptions C67_nonvacuous.
Print Assumptions C67_everything_refuted.
