(** * From an invoice to a balance: property theorems C68 *)
From Coq Require Import Ascii String Lia.
From Verif Require Import Base Str StM Core Ser MergeModel MergeSpec MergeProofs ContainerModel ContainerSpec ContainerProofs.
From Verif Require Import PIndexModel PIndexSpec PIndexProofs StateModel StateSpec StateProofs StashModel StashSpec StashProofs StashAgain StashProps.
From Verif Require Import StockModel StockProofs StockAgain ConsignModel ConsignSpec ConsignProofs ConsignAccept ConsignProps FasciaProps StockProps StateProps.
From Verif Require Import TransferProofs TransferSpec TransferProps ExportProps.
From Verif Require Import InvoiceModel SupplModel IfaceModel BuilderModel BuilderSpec BuilderProofs BuilderComplete BuilderProps ComposeModel ComposeSpec ComposeProofs ComposeMain ComposePaid
  ComposeBlank ComposeErr ComposeProps FoundProps PaySpec PayProofs.
Local Open Scope list_scope.
Local Open Scope N_scope.

Section Pay.
Context {OG : OrdKey GlobalOut} (H : Hashes) (HC : collision_free H) (K : Merkle).

Lemma published_sorted f r s s' cid ts i : published H K f r s s' cid ts -> In i ts -> msorted (op_assigns (ti_transition i) : omap N TypedAssigns).
Proof.
  intros (_ & Ok & _ & _ & Co) Hi. destruct (Co i Hi) as (b & Hb & Ht). destruct (Ok _ Hb) as [_ Bs]. cbn [snd] in Bs.
  apply (Bs (ti_transition i)). apply in_map_iff. exists (op_id H (ti_transition i), ti_transition i). auto.
Qed.

(** The outputs of transitions with what they pay to a seal are a list of amounts. *)
Lemma amounts_from s r cid w ts a ben x :
  NoDup (map (fun i => op_id H (ti_transition i)) ts) ->
  (forall i, In i ts -> msorted (op_assigns (ti_transition i) : omap N TypedAssigns)) ->
  (forall i, In i ts -> kinded (op_assigns (ti_transition i))) ->
  (forall i ta no y st, In i ts -> In (a, ta) (op_assigns (ti_transition i)) -> nth_error (ta_list ta) no = Some y -> goes_to ben y = true -> revealed_state y = Some st ->
     receives s r cid (ta_kind ta) {| oo_op := op_id H (ti_transition i); oo_ty := a; oo_no := N.of_nat no |} x st w) ->
  exists outs, amounts_of H s r cid w ts a x outs /\ list_sum (map snd outs) = list_sum (map (fun i => paid_to ben a (ti_transition i)) ts).
Proof.
  intros Nd So Ki Hr. exists (flat_map (fun i => outs_to H ben a (ti_transition i)) ts). split; [|apply flat_sum]. split.
  - apply (flat_NoDup H (outs_to H ben a) ts Nd).
    + intros i Hi. apply outs_to_NoDup, So, Hi.
    + intros i oo Hi Hoo. apply in_map_iff in Hoo as ([o v] & <- & Hoo). apply (outs_to_In _ _ _ _ _ _ (Ki i Hi)) in Hoo. apply Hoo.
  - intros oo v Hin. apply in_flat_map in Hin as (i & Hi & Hin). apply (outs_to_In _ _ _ _ _ _ (Ki i Hi)) in Hin.
    destruct Hin as (Et & Eo & ta & no & y & bl & tag & Hta & Ek & Hn & Hg & Es & ->). split; [exact Et|]. split; [exists i; auto|].
    exists bl, tag. rewrite <- Ek. eapply Hr; eassumption.
Qed.

(** What the transitions move back is in the payer's stock. *)
Lemma returned_all f r s s' ch method layer u cid vel l (own : TransitionInfo -> list Inp) ts :
  NoDup (map in_out l) -> spends_all cid l ts -> published H K f r s s' cid ts ->
  (forall i, In i ts -> kinded (op_assigns (ti_transition i))) ->
  (forall i, In i ts -> exists R rest, Forall2 (moved ch method layer u cid vel) (own i) R /\ Permutation (shown (ti_transition i)) (R ++ rest)) ->
  exists back, Permutation (map fst back) (flat_map own ts) /\ NoDup (map snd back) /\
    forall y oo, In (y, oo) back -> oo_ty oo = in_ty y /\ (exists i, In i ts /\ oo_op oo = op_id H (ti_transition i)) /\
      exists x st, payer_seal ch method layer (u y) cid (in_ty y) (vel (in_ty y)) (BRevealed x) /\
        unblind st = unblind (in_state y) /\ receives s' r cid (kind_of (in_state y)) oo x st (fascia_witness_id f).
Proof.
  intros Nd Sp Pb Ki Ht. pose proof (spends_ids H cid l ts HC Nd Sp) as Ids. clear Sp Nd.
  assert (So : forall i, In i ts -> msorted (op_assigns (ti_transition i) : omap N TypedAssigns)) by (intros i Hi; exact (published_sorted _ _ _ _ _ _ _ Pb Hi)).
  destruct Pb as (Re & Okf & Ef & Nb & Co). induction ts as [|i ts IH].
  - exists []. split; [constructor|]. split; [constructor|]. intros ? ? [].
  - cbn [map] in Ids. inversion_clear Ids as [|? ? Nin Ids'].
    destruct IH as (back & Hp & Hn & Hb); try assumption.
    + intros j Hj. apply Co. right. exact Hj.
    + intros j Hj. apply Ki. right. exact Hj.
    + intros j Hj. apply Ht. right. exact Hj.
    + intros j Hj. apply So. right. exact Hj.
    + destruct (Ht i (or_introl eq_refl)) as (R & rest & FR & Hpr).
      destruct (back_of H ch method layer u cid vel (ti_transition i) (own i) R rest (So i (or_introl eq_refl)) (Ki i (or_introl eq_refl)) Hpr FR) as (b1 & E1 & N1 & H1).
      destruct (Co i (or_introl eq_refl)) as (b & Hin & Hop).
      exists (b1 ++ back). rewrite !map_app, E1. split; [apply Permutation_app_head, Hp|]. split.
      * apply NoDup_appl; [exact N1|exact Hn|]. intros oo J1 J2. apply in_map_iff in J1 as ([y o] & Eo & J1). cbn in Eo. subst o. apply in_map_iff in J2 as ([y' o] & Eo & J2). cbn in Eo. subst o.
        destruct (H1 _ _ J1) as (_ & O1 & _). destruct (Hb _ _ J2) as (_ & (j & Hj & O2) & _). apply Nin. rewrite <- O1, O2. apply (in_map (fun i => op_id H (ti_transition i))). exact Hj.
      * intros y oo Hin'. apply in_app_or in Hin' as [J|J].
        -- destruct (H1 _ _ J) as (T1 & O1 & ta & no & x & st & Hta & Hno & Ek & Ps & Eu & ->). split; [exact T1|]. split; [exists i; split; [left; reflexivity|exact O1]|].
           exists x, st. split; [exact Ps|]. split; [exact Eu|]. rewrite <- Ek.
           exact (fascia_receives H HC K f r s s' cid b _ _ _ ta no x st Re Okf Ef Hin Hop Hta Hno).
        -- destruct (Hb _ _ J) as (T1 & (j & Hj & O1) & Rest). split; [exact T1|]. split; [exists j; split; [right; exact Hj|exact O1]|exact Rest].
Qed.
(** An output of a published transition, revealed at a transaction output for which the contract is
    exported, comes to whoever accepts the export. *)
Lemma witness_receives f rA sA sA' cid ts i a ta no x st fuel transfer outputs secret c sB r sB' o :
  published H K f rA sA sA' cid ts -> fresh H f sA cid ts -> In i ts ->
  In (a, ta) (op_assigns (ti_transition i)) -> nth_error (ta_list ta) no = Some (Revealed x st) ->
  In o outputs -> s_txid x = None -> s_vout x = os_vout o ->
  os_layer o = w_layer (fascia_witness_id f) -> os_txid o = w_txid (fascia_witness_id f) ->
  s_method x = OpretFirst \/ one_seal sA' cid outputs ->
  consign H K fuel sA' transfer cid outputs secret = Some (Ok c) ->
  reachable H K sB -> accept_body H K c r sB = (sB', Ok Datatypes.tt) ->
  receives sB' r cid (ta_kind ta) {| oo_op := op_id H (ti_transition i); oo_ty := a; oo_no := N.of_nat no |} x st (fascia_witness_id f).
Proof.
  intros Pb Fr Hi Hta Hn Ho Tx Vx El Ex Os Ec ReB Ac.
  destruct Pb as (ReA & Okf & Ef & Nb & Co). destruct (Co i Hi) as (b & Hb & Ht). destruct Fr as [Fb Fo]. destruct (Fb b Hb) as (Nb1 & Nb2).
  pose proof (fascia_reachable H K f rA sA sA' _ ReA Okf Ef) as ReA'.
  destruct (C57_indexed OG H K f rA sA sA' cid b HC ReA Ef Hb) as (_ & _ & Ix). destruct (Ix _ _ Ht) as (Io & Ia).
  destruct (C57_stored_partial OG H K f rA sA sA' cid b HC ReA Okf Ef Hb) as (_ & _ & St). destruct (St Nb1 Nb) as (Est & _).
  destruct (fascia_receives H HC K f rA sA sA' cid b _ _ a ta no x st ReA Okf Ef Hb Ht Hta Hn) as (ord & out & b0 & mc & _ & _ & So & Fo' & _).
  assert (Ki : known_in sA' (op_id H (ti_transition i)) (bundle_id H b) (ti_transition i)).
  { split.
    - unfold bundle_id_for_op in Io. cbn [states]. destruct (mget _ (mi_op_bundle (sk_index sA'))); [apply Ok_inj in Io; congruence|discriminate Io].
    - exists b. split; [exact Est|]. apply In_mget; [apply (Okf _ Hb)|exact Ht]. }
  assert (Hi' : found_history sA' cid outputs secret (op_id H (ti_transition i))).
  { apply reached_start; [|apply Fo, Hi]. exists {| oo_op := op_id H (ti_transition i); oo_ty := a; oo_no := N.of_nat no |}. split; [|reflexivity]. left. exists out, o. split; [exact Ho|]. 
    destruct So as (S1 & S2 & S3 & S4). rewrite Tx in S4. destruct S4 as [S4 S5].
    assert (Eo : os_outpoint out = os_outpoint o) by (unfold os_outpoint; rewrite S4, S2, S3, Ex, El, <- S5, Vx; reflexivity).
    split; [exact Eo|]. split; [exact Fo'|]. destruct Os as [Os|Os]; [left; congruence|right].
    intros out' oo' Fo2 Eo2. symmetry. apply (Os out out' _ oo' o Fo' Fo2 Ho Eo). congruence. }
  destruct (C62_revealed OG H K fuel sA' sB transfer cid outputs secret c r sB' _ _ _ a ta no x st HC ReA' ReB Ec Ac Hi' Ki Hta Hn) as (w & Fw & _ & Rc).
  replace (fascia_witness_id f) with w; [exact Rc|]. pose proof (reachable_sound H HC K sA ReA) as SdA.
  apply (fascia_ok H K) in Ef. cbv zeta in Ef. destruct Ef as (_ & (_ & Ei) & _). rewrite Ei in Fw. apply calls_sound in Fw; [|apply SdA].
  destruct Fw as [Fw|(ic & Hic & An)]; [destruct (Nb2 _ Fw)|]. apply in_map_iff in Hic. destruct Hic as (q & <- & _).
  cbn [ix_of announces bundle_announces] in An. unfold bundle_announces in An.
  destruct An as [An|[An|(o' & t0 & _ & [An|(? & ? & ? & _ & [(? & ? & _ & _ & An)|(? & _ & An)])])]]; try discriminate An.
  injection An as _ ->. reflexivity.
Qed.
End Pay.

(** C68: the payer composes the payment of an invoice with a blinded seal, has the transaction
    committing to it in its stock, exports the contract for that seal; the payee, who has the
    seal, accepts. Then the payee has outputs of the transitions with the type of the invoice,
    under the seal, whose amounts are the invoiced amount in total.
    Missing: see the conditions of [paying] (C37). *)
Theorem C68_blinded_partial : forall (OG : OrdKey GlobalOut) H K D P wrap sA ch od inv prev method vout priority now batch cid tt a amt l f rA sA' fuel transfer c sB r sB' x0 x,
  collision_free H ->
  paying D wrap sA ch od inv prev method vout cid tt a amt l ->
  compose H D P wrap sA ch od inv prev method vout priority now = Ok batch ->
  xcn_into_inner (beneficiary inv) = BlindedSeal x0 -> df_secret D (layer1 (chain_network (beneficiary inv))) x0 = h_seal H x ->
  let ts := di_iter (ba_main batch) in
  published H K f rA sA sA' cid ts -> fresh H f sA cid ts ->
  consign H K fuel sA' transfer cid [] (Some (h_seal H x)) = Some (Ok c) ->
  reachable H K sB -> seal_secret H (sk_stash sB) (h_seal H x) = Some x ->
  accept_body H K c r sB = (sB', Ok Datatypes.tt) ->
  exists outs, amounts_of H sB' r cid (fascia_witness_id f) ts a x outs /\ list_sum (map snd outs) = amt.
Proof.
  intros OG H K D P wrap sA ch od inv prev method vout priority now batch cid tt a amt l f rA sA' fuel transfer c sB r sB' x0 x HC Pay E Eb Es ts Pb Fr Ec ReB Sx Ac.
  destruct (C37_paid_partial H D P wrap sA ch od inv prev method vout priority now batch cid tt a amt l Pay E) as (ben & Hben & Hsum).
  rewrite Eb in Hben. cbn [is_beneficiary] in Hben. destruct Hben as [_ ->]. rewrite Es in Hsum.
  destruct (C38_amount_partial H D P wrap sA ch od inv prev method vout priority now batch cid tt a amt l Pay E) as (Sp & _).
  pose proof Pay as (_ & _ & _ & _ & (Nd & _) & _).
  destruct (amounts_from H sB' r cid (fascia_witness_id f) ts a (BConcealed (h_seal H x)) x) as (outs & Ho & Hs).
  - exact (spends_ids H cid l ts HC Nd Sp).
  - intros i Hi. exact (published_sorted H K f rA sA sA' cid ts i Pb Hi).
  - intros i Hi. exact (compose_kinded _ _ _ _ _ _ _ _ _ _ _ _ _ _ E _ (or_introl eq_refl) i Hi).
  - intros i ta no y st Hi Hta Hn Hg Hst. destruct y as [| | |]; cbn [goes_to revealed_state] in Hg, Hst; try discriminate. apply N.eqb_eq in Hg. injection Hst as ->. subst.
    destruct Pb as (ReA & Okf & Ef & Nb & Co). destruct (Co i Hi) as (b & Hb & Ht). destruct Fr as [Fb Fo].
    exact (C62_paid OG H K fuel sA f rA sA' cid b _ _ a ta no x st transfer c sB r sB' HC ReA ReB Okf Ef Hb Nb (Fb b Hb) Ht (Fo i Hi) Hta Hn Sx Ec Ac).
  - exists outs. split; [exact Ho|]. rewrite Hs. exact Hsum.
Qed.

(** In C68 for a payee known by an address, the seal is at the output of the payer's transaction
    which the payer has named; the contract is exported for that output (or for others, too), where
    no other seal is. *)
Theorem C68_witness_partial : forall (OG : OrdKey GlobalOut) H K D P wrap sA ch od inv prev method vout priority now batch cid tt a amt l f rA sA' fuel transfer outputs secret c sB r sB' p o,
  collision_free H ->
  paying D wrap sA ch od inv prev method vout cid tt a amt l ->
  compose H D P wrap sA ch od inv prev method vout priority now = Ok batch ->
  xcn_into_inner (beneficiary inv) = WitnessVout p ->
  let ts := di_iter (ba_main batch) in
  published H K f rA sA sA' cid ts -> fresh H f sA cid ts ->
  In o outputs -> os_layer o = w_layer (fascia_witness_id f) -> os_txid o = w_txid (fascia_witness_id f) -> vout = Some (os_vout o) ->
  p2v_method p = OpretFirst \/ one_seal sA' cid outputs ->
  consign H K fuel sA' transfer cid outputs secret = Some (Ok c) ->
  reachable H K sB -> accept_body H K c r sB = (sB', Ok Datatypes.tt) ->
  exists x outs, s_txid x = None /\ s_vout x = os_vout o /\ s_method x = p2v_method p /\
    amounts_of H sB' r cid (fascia_witness_id f) ts a x outs /\ list_sum (map snd outs) = amt.
Proof.
  intros OG H K D P wrap sA ch od inv prev method vout priority now batch cid tt a amt l f rA sA' fuel transfer outputs secret c sB r sB' p o HC Pay E Eb ts Pb Fr Ho El Ex Ev Os Ec ReB Ac.
  destruct (C37_paid_partial H D P wrap sA ch od inv prev method vout priority now batch cid tt a amt l Pay E) as (ben & Hben & Hsum).
  rewrite Eb in Hben. cbn [is_beneficiary] in Hben. destruct Hben as (v & Ev' & ->). rewrite Ev in Ev'. injection Ev' as <-.
  destruct (C38_amount_partial H D P wrap sA ch od inv prev method vout priority now batch cid tt a amt l Pay E) as (Sp & _).
  pose proof Pay as (_ & _ & _ & _ & (Nd & _) & _).
  match type of Hsum with context [BRevealed ?y] => set (x := y) in * end.
  destruct (amounts_from H sB' r cid (fascia_witness_id f) ts a (BRevealed x) x) as (outs & Hout & Hs).
  - exact (spends_ids H cid l ts HC Nd Sp).
  - intros i Hi. exact (published_sorted H K f rA sA sA' cid ts i Pb Hi).
  - intros i Hi. exact (compose_kinded _ _ _ _ _ _ _ _ _ _ _ _ _ _ E _ (or_introl eq_refl) i Hi).
  - intros i ta no y st Hi Hta Hn Hg Hst. destruct y as [| | |s0 st0]; cbn [goes_to revealed_state] in Hg, Hst; try discriminate. apply keqb_true in Hg. injection Hst as ->. subst s0.
    exact (witness_receives H HC K f rA sA sA' cid ts i a ta no x st fuel transfer outputs secret c sB r sB' o Pb Fr Hi Hta Hn Ho eq_refl eq_refl El Ex Os Ec ReB Ac).
  - exists x, outs. split; [reflexivity|]. split; [reflexivity|]. split; [reflexivity|]. split; [exact Hout|]. rewrite Hs. exact Hsum.
Qed.

(** The payer's stock has the change: all of the inputs which was not invoiced, *)
Theorem C68_change_partial : forall (OG : OrdKey GlobalOut) H K D P wrap sA ch od inv prev method vout priority now batch cid tt a amt l f rA sA',
  collision_free H ->
  paying D wrap sA ch od inv prev method vout cid tt a amt l ->
  compose H D P wrap sA ch od inv prev method vout priority now = Ok batch ->
  let ts := di_iter (ba_main batch) in
  published H K f rA sA sA' cid ts ->
  exists x outs, payer_seal ch method (layer1 (chain_network (beneficiary inv))) UChange cid a (velocity_for D sA cid a) (BRevealed x) /\
    amounts_of H sA' rA cid (fascia_witness_id f) ts a x outs /\ amt + list_sum (map snd outs) = total a l.
Proof.
  intros OG H K D P wrap sA ch od inv prev method vout priority now batch cid tt a amt l f rA sA' HC Pay E ts Pb.
  destruct (C38_amount_partial H D P wrap sA ch od inv prev method vout priority now batch cid tt a amt l Pay E) as (Sp & ben & change & tag & _ & Pc & Hne & _ & Ht).
  destruct (proj1 (C37_enough_partial H D P wrap sA ch od inv prev method vout priority now cid tt a amt l Pay) batch E) as [Hamt _].
  pose proof Pay as (_ & _ & _ & _ & (Nd & _) & _). pose proof Pc as (vo & Ev & Ec). subst change.
  match type of Pc with context [BRevealed ?y] => set (x := y) in * end.
  destruct (amounts_from H sA' rA cid (fascia_witness_id f) ts a (BRevealed x) x) as (outs & Hout & Hs).
  - exact (spends_ids H cid l ts HC Nd Sp).
  - intros i Hi. exact (published_sorted H K f rA sA sA' cid ts i Pb Hi).
  - intros i Hi. exact (compose_kinded _ _ _ _ _ _ _ _ _ _ _ _ _ _ E _ (or_introl eq_refl) i Hi).
  - intros i ta no y st Hi Hta Hn Hg Hst. destruct y as [| | |s0 st0]; cbn [goes_to revealed_state] in Hg, Hst; try discriminate. apply keqb_true in Hg. injection Hst as ->. subst s0.
    destruct Pb as (ReA & Okf & Ef & Nb & Co). destruct (Co i Hi) as (b & Hb & Htt).
    exact (fascia_receives H HC K f rA sA sA' cid b _ _ a ta no x st ReA Okf Ef Hb Htt Hta Hn).
  - exists x, outs. split; [exact Pc|]. split; [exact Hout|]. rewrite Hs.
    assert (Em : map (fun t => paid_to (BRevealed x) a (ti_transition t)) ts = map (fun t => total a (with_method (ti_method t) l) - paid amt method a l (ti_method t)) ts).
    { apply map_ext_in. intros t Hi. destruct (Ht t Hi) as (_ & R & FR & Hp). rewrite paid_to_shown.
      transitivity (list_sum (map (amount_out a) (filter (fun p => goes_to (BRevealed x) (snd p))
        (R ++ amount_to a tag ben (paid amt method a l (ti_method t)) ++ amount_to a tag (BRevealed x) (total a (with_method (ti_method t) l) - paid amt method a l (ti_method t)))))).
      - apply list_sum_perm. apply Permutation_map. apply BuilderComplete.filter_perm. exact Hp.
      - rewrite !filter_app, !map_app, !list_sum_app. rewrite (moved_not _ _ _ _ _ _ _ _ _ _ FR), amount_to_goes, amount_to_not by congruence. rewrite N.eqb_refl. unfold list_sum. cbn [map fold_right]. lia. }
    rewrite Em. pose proof (total_split a method l) as Hsp.
    rewrite (sum_methods cid l ts (fun m => total a (with_method m l) - paid amt method a l m) Sp).
    + unfold paid. destruct method; cbn [other] in Hsp; change (keqb TapretFirst OpretFirst) with false; change (keqb OpretFirst TapretFirst) with false; rewrite !keqb_refl; lia.
    + intros m Hm. rewrite Hm. reflexivity.
Qed.

(** and the inputs of other types: *)
Theorem C68_kept_partial : forall (OG : OrdKey GlobalOut) H K D P wrap sA ch od inv prev method vout priority now batch cid tt a amt l f rA sA',
  collision_free H ->
  paying D wrap sA ch od inv prev method vout cid tt a amt l ->
  compose H D P wrap sA ch od inv prev method vout priority now = Ok batch ->
  let ts := di_iter (ba_main batch) in
  published H K f rA sA sA' cid ts ->
  exists back, returned H sA' rA ch method (layer1 (chain_network (beneficiary inv))) use_main cid (velocity_for D sA cid) (fascia_witness_id f) ts (other_types a l) back.
Proof.
  intros OG H K D P wrap sA ch od inv prev method vout priority now batch cid tt a amt l f rA sA' HC Pay E ts Pb.
  destruct (C38_amount_partial H D P wrap sA ch od inv prev method vout priority now batch cid tt a amt l Pay E) as (Sp & ben & change & tag & _ & _ & _ & _ & Ht).
  pose proof Pay as (_ & _ & _ & _ & (Nd & _) & _).
  destruct (returned_all H HC K f rA sA sA' ch method (layer1 (chain_network (beneficiary inv))) use_main cid (velocity_for D sA cid) l
    (fun i => other_types a (with_method (ti_method i) l)) ts Nd Sp Pb) as (back & Hp & Hb).
  - intros i Hi. exact (compose_kinded _ _ _ _ _ _ _ _ _ _ _ _ _ _ E _ (or_introl eq_refl) i Hi).
  - intros i Hi. destruct (Ht i Hi) as (_ & R & FR & Hp). exists R. eexists. split; [exact FR|exact Hp].
  - exists back. split; [|exact Hb]. eapply perm_trans; [exact Hp|]. exact (others_perm cid a l ts Sp).
Qed.

(** and the state of other contracts on the spent outputs, when the transaction commits to the
    blank transitions for them. *)
Theorem C68_blanks_partial : forall (OG : OrdKey GlobalOut) H K D P wrap sA ch od inv prev method vout priority now batch cid f rA sA',
  collision_free H -> orders_ok od -> schemata_small D -> InvoiceModel.contract inv = Some cid ->
  compose H D P wrap sA ch od inv prev method vout priority now = Ok batch ->
  exists ids, NoDup ids /\ (forall id, In id ids <-> In id (contracts_assigning (sk_index sA) (sfrom (map os_outpoint prev))) /\ id <> cid) /\
    Forall2 (fun id d => forall l, spent sA id prev l -> separate ch use_blank id (velocity_for D sA id) l ->
      let ts := di_iter d in published H K f rA sA sA' id ts ->
      exists back, returned H sA' rA ch method (layer1 (chain_network (beneficiary inv))) use_blank id (velocity_for D sA id) (fascia_witness_id f) ts l back) ids (ba_blanks batch).
Proof.
  intros OG H K D P wrap sA ch od inv prev method vout priority now batch cid f rA sA' HC Oo Sm Ei E.
  destruct (C38_blanks_partial H D P wrap sA ch od inv prev method vout priority now batch cid Oo Sm Ei E) as (ids & Nd & Hids & F).
  exists ids. split; [exact Nd|]. split; [exact Hids|].
  assert (Ki : forall d, In d (ba_blanks batch) -> forall i, In i (di_iter d) -> kinded (op_assigns (ti_transition i))) by (intros d Hd; apply (compose_kinded _ _ _ _ _ _ _ _ _ _ _ _ _ _ E); right; exact Hd).
  clear E Nd Hids. induction F as [|id d ids ds Hd F IH]; constructor; [|apply IH; intros d' Hd'; apply Ki; right; exact Hd'].
  intros l Hsp Hsep ts Pb. destruct (Hd l Hsp Hsep) as (_ & Sp & Ht). destruct Hsp as (Ndl & _).
  destruct (returned_all H HC K f rA sA sA' ch method (layer1 (chain_network (beneficiary inv))) use_blank id (velocity_for D sA id) l
    (fun i => with_method (ti_method i) l) ts Ndl Sp Pb) as (back & Hp & Hb).
  - intros i Hi. exact (Ki d (or_introl eq_refl) i Hi).
  - intros i Hi. destruct (Ht i Hi) as (_ & R & FR & Hp). exists R, []. split; [exact FR|]. rewrite app_nil_r. exact Hp.
  - exists back. split; [|exact Hb]. eapply perm_trans; [exact Hp|]. exact (spends_perm id l ts Sp).
Qed.

Lemma seal_output_fun w x out out' : seal_output w x out -> seal_output w x out' -> out = out'.
Proof.
  intros (A1 & A2 & A3 & A4) (B1 & B2 & B3 & B4). destruct out, out'. cbn in *. destruct (s_txid x); [|destruct w; [|contradiction]; destruct A4 as [A4 _], B4 as [B4 _]]; congruence.
Qed.

(** What came counts for the balance at the output of the seal: it is no less than the amounts,
    unless the transaction is archived by the resolver.  (When the seal names its transaction, the
    allocation may be known with another witness: none of those may be archived.) *)
Theorem C68_balance : forall (OG : OrdKey GlobalOut) H s r cid w ts ty x outs out mc,
  amounts_of H s r cid w ts ty x outs -> seal_output (Some w) x out -> contract_state (sk_state s) cid = Ok mc ->
  (s_txid x = None /\ r w <> Some Archived) \/
  (forall a, sstates (sk_state s) (SFOut cid KFungible a) -> oa_seal a = out -> live (sk_state s) (oa_witness a)) ->
  list_sum (map snd outs) <= balance mc out ty.
Proof.
  intros OG H s r cid w ts ty x outs out mc (Nd & Ho) So Ec Hl.
  assert (Ha : exists la, map oa_opout la = map fst outs /\ map worth la = map snd outs /\ forall a, In a la -> In a (filter (at_place out ty) (outs_all KFungible mc))).
  { clear Nd. induction outs as [|[oo v] outs IH]; [exists []; repeat split; intros ? []|].
    destruct IH as (la & E1 & E2 & E3); [intros oo' v' Hin; apply Ho; right; exact Hin|].
    destruct (Ho oo v (or_introl eq_refl)) as (Et & _ & bl & tag & ord & out' & a & mc' & Rw & Mw & So' & _ & O1 & O2 & O3 & Ec' & Ss & Io & In0).
    rewrite Ec in Ec'. apply Ok_inj in Ec'. subst mc'. pose proof (seal_output_fun _ _ _ _ So So') as Eo. rewrite <- Eo in *. exists (a :: la). cbn [map fst snd]. rewrite E1, E2, O1.
    split; [reflexivity|]. split; [unfold worth; rewrite O3; reflexivity|]. intros b [<-|Hb]; [|apply E3, Hb]. apply filter_In. split.
    - destruct Hl as [(Tx & Na)|Hl]; [apply (proj2 (In0 Tx)); congruence|apply Io, Hl; [exact Ss|congruence]].
    - unfold at_place. rewrite O2, O1, keqb_refl, Et, N.eqb_refl. reflexivity. }
  destruct Ha as (la & E1 & E2 & E3). rewrite <- E2. unfold balance. apply sum_incl; [|exact E3].
  apply (NoDup_map_inv oa_opout). rewrite E1. exact Nd.
Qed.

(** ** Example: forty paid from two contracts' outputs, with both closing methods

    The stock of the example of C38 has the invoiced contract (30 and 25) and another one on the same
    outputs. One transaction commits to all four transitions. *)
Definition py_invoice : RgbInvoice :=
  {| transports := []; InvoiceModel.contract := Some fd_first; InvoiceModel.iface := Some (lit "A"%string); InvoiceModel.operation := None;
     InvoiceModel.assignment := None; beneficiary := XBitcoinMainnet (BlindedSeal cn_secret); owned_state := ISAmount 40; expiry := None; unknown_query := [] |}.
Definition py_bundle (i : TransitionInfo) : Bundle :=
  {| b_method := ti_method i; b_inputs := [(0, op_id bit_hashes (ti_transition i))]; b_known := [(op_id bit_hashes (ti_transition i), ti_transition i)] |}.
Definition py_bundles (d : Dichotomy TransitionInfo) : Dichotomy Bundle :=
  {| di_first := py_bundle (di_first d); di_second := option_map py_bundle (di_second d) |}.
Definition py_anchor : Anchor := {| an_root := 1; an_known := mfrom [(fd_first, 5); (fd_second, 6)]; an_dbc := 0 |}.
Definition py_fascia (b : Batch) : Fascia :=
  {| fa_witness := {| xw_layer := Bitcoin; xw_pub := PwTxid 10 |}; fa_anchor := ASDouble py_anchor py_anchor;
     fa_bundles := mfrom ((fd_first, py_bundles (ba_main b)) :: map (fun d => (fd_second, py_bundles d)) (ba_blanks b)) |}.
Definition py_payer {OG : OrdKey GlobalOut} : Stock := stock_after bit_hashes cn_merkle sk_empty fd_calls.
Definition py_l : list Inp :=
  [(cx_seal TapretFirst 1, ({| oo_op := fd_first; oo_ty := 10; oo_no := 0 |}, RAmount 30 11 77));
   (cx_seal OpretFirst 2, ({| oo_op := fd_first; oo_ty := 10; oo_no := 1 |}, RAmount 25 12 77))].


Lemma py_reachable {OG : OrdKey GlobalOut} : reachable bit_hashes cn_merkle py_payer.
Proof. exists fd_calls. split; [|reflexivity]. intros x [<-|[<-|[]]]; apply cons_okb_ok; vm_compute; reflexivity. Qed.
Lemma py_paying {OG : OrdKey GlobalOut} : paying cx_defs false py_payer cx_apart cx_orders py_invoice cx_prev TapretFirst None fd_first 20 10 40 py_l.
Proof.
  split; [exact cx_orders_ok|]. split; [exact cx_small|]. split; [reflexivity|]. split.
  { eexists (lit "A"%string), fd_one, _, _, _, bx. split; [reflexivity|]. split; [reflexivity|]. split; [vm_compute; reflexivity|]. split; [vm_compute; reflexivity|].
    split; [vm_compute; reflexivity|]. split; [vm_compute; reflexivity|]. repeat (split; [reflexivity|]). split; [exists 20; split; reflexivity|].
    exists 10. split; [reflexivity|]. exists 20. eexists. repeat split; reflexivity. }
  split. { eapply spent_of; [vm_compute; reflexivity|vm_compute; reflexivity|]. repeat constructor; cbn; intuition discriminate. }
  split; [left; reflexivity|]. split; [|exact Logic.I]. intros x y [].
Qed.

Fixpoint nodupb (l : list N) : bool := match l with [] => true | x :: l' => negb (existsb (N.eqb x) l') && nodupb l' end.
Lemma nodupb_ok l : nodupb l = true -> NoDup l.
Proof.
  induction l as [|x l IH]; intros E; [constructor|]. cbn in E. apply andb_prop in E as [E1 E2]. constructor; [|apply IH, E2]. intros Hx.
  apply negb_true_iff in E1. rewrite (proj2 (existsb_exists _ _)) in E1; [discriminate|]. exists x. split; [exact Hx|apply N.eqb_refl].
Qed.
Lemma not_there {K V} `{OrdKey K} (k : K) (m : omap K V) : negb (mhas k m) = true -> mget k m = None.
Proof. unfold mhas. destruct (mget k m); [discriminate|reflexivity]. Qed.
Lemma py_commits b cid d : mget cid (fa_bundles (py_fascia b)) = Some (py_bundles d) -> commits_to bit_hashes (py_fascia b) cid (di_iter d).
Proof.
  intros E i Hi. exists (py_bundle i). split; [|left; reflexivity]. unfold fascia_bundles. apply in_flat_map. exists (cid, py_bundles d). split; [apply mget_In, E|].
  cbn [fst snd]. apply (in_map (fun b => (cid, b))). destruct d as [x [y|]]; cbn in *; intuition (subst; auto).
Qed.

Example C68_nonvacuous : forall OG : OrdKey GlobalOut, exists batch sA' c sB',
  paying cx_defs false py_payer cx_apart cx_orders py_invoice cx_prev TapretFirst None fd_first 20 10 40 py_l /\
  compose bit_hashes cx_defs bx_pedersen false py_payer cx_apart cx_orders py_invoice cx_prev TapretFirst None 7 50%Z = Ok batch /\
  df_secret cx_defs Bitcoin cn_secret = h_seal bit_hashes ex_secret /\
  len (di_iter (ba_main batch)) = 2 /\ len (ba_blanks batch) = 1 /\
  published bit_hashes cn_merkle (py_fascia batch) yes_witness py_payer sA' fd_first (di_iter (ba_main batch)) /\
  fresh bit_hashes (py_fascia batch) py_payer fd_first (di_iter (ba_main batch)) /\
  (forall d, In d (ba_blanks batch) -> published bit_hashes cn_merkle (py_fascia batch) yes_witness py_payer sA' fd_second (di_iter d)) /\
  consign bit_hashes cn_merkle 10 sA' true fd_first [] (Some (h_seal bit_hashes ex_secret)) = Some (Ok c) /\
  reachable bit_hashes cn_merkle tx_payee /\ seal_secret bit_hashes (sk_stash tx_payee) (h_seal bit_hashes ex_secret) = Some ex_secret /\
  accept_body bit_hashes cn_merkle c yes_witness tx_payee = (sB', Ok tt).
Proof.
  intros OG.
  destruct (compose bit_hashes cx_defs bx_pedersen false py_payer cx_apart cx_orders py_invoice cx_prev TapretFirst None 7 50%Z) as [batch| |] eqn:E;
    [|exfalso; vm_compute in E; discriminate E|exfalso; vm_compute in E; discriminate E].
  vm_compute in E. injection E as E.
  assert (E1 : match fascia_body bit_hashes (py_fascia batch) yes_witness py_payer with
       | (s1, Ok _) => match consign bit_hashes cn_merkle 10 s1 true fd_first [] (Some (h_seal bit_hashes ex_secret)) with
                 | Some (Ok c) => match snd (accept_body bit_hashes cn_merkle c yes_witness tx_payee) with Ok _ => true | _ => false end
                 | _ => false end
       | _ => false end = true) by (subst batch; vm_compute; reflexivity).
  destruct (fascia_body bit_hashes (py_fascia batch) yes_witness py_payer) as [sA' [[]|e|]] eqn:Ef; try discriminate E1.
  destruct (consign bit_hashes cn_merkle 10 sA' true fd_first [] (Some (h_seal bit_hashes ex_secret))) as [[c|e|]|] eqn:Ec; try discriminate E1.
  destruct (accept_body bit_hashes cn_merkle c yes_witness tx_payee) as [sB' [[]|e|]] eqn:Ea; try discriminate E1.
  exists batch, sA', c, sB'. clear E1.
  assert (Okf : stock_call_ok bit_hashes (SkFascia (py_fascia batch) yes_witness)).
  { assert (Hb : forallb (fun p => bundle_okb bit_hashes (snd p)) (fascia_bundles (py_fascia batch)) = true) by (subst batch; vm_compute; reflexivity).
    rewrite forallb_forall in Hb. intros p Hp. apply bundle_okb_ok, Hb, Hp. }
  assert (Nd : NoDup (map (fun p => bundle_id bit_hashes (snd p)) (fascia_bundles (py_fascia batch)))) by (apply nodupb_ok; subst batch; vm_compute; reflexivity).
  assert (Pb : forall cid d, mget cid (fa_bundles (py_fascia batch)) = Some (py_bundles d) -> published bit_hashes cn_merkle (py_fascia batch) yes_witness py_payer sA' cid (di_iter d)).
  { intros cid d Em. split; [exact py_reachable|]. split; [exact Okf|]. split; [exact Ef|]. split; [exact Nd|]. apply py_commits, Em. }
  split; [exact py_paying|]. split; [reflexivity|]. split; [reflexivity|]. split; [subst batch; reflexivity|]. split; [subst batch; reflexivity|].
  split; [apply Pb; subst batch; vm_compute; reflexivity|].
  split. { split.
    - assert (Hn : forallb (fun p => negb (mhas (bundle_id bit_hashes (snd p)) (st_bundles (sk_stash py_payer))) && negb (mhas (bundle_id bit_hashes (snd p)) (mi_bundle_witness (sk_index py_payer)))) (fascia_bundles (py_fascia batch)) = true)
        by (subst batch; vm_compute; reflexivity).
      rewrite forallb_forall in Hn. intros b Hb. specialize (Hn _ Hb). cbn [snd] in Hn. apply andb_prop in Hn as [N1 N2]. apply not_there in N1, N2. split; [exact N1|].
      intros w (ws & Ew & _). exact (eq_ind None (fun o => match o with None => True | _ => False end) Logic.I _ (eq_trans (eq_sym N2) Ew)).
    - assert (Hn : forallb (fun i => negb (op_id bit_hashes (ti_transition i) =? fd_first)) (di_iter (ba_main batch)) = true) by (subst batch; vm_compute; reflexivity).
      rewrite forallb_forall in Hn. intros i Hi Ei. specialize (Hn i Hi). rewrite Ei, N.eqb_refl in Hn. discriminate. }
  split. { intros d Hd. apply Pb. subst batch. destruct Hd as [<-|[]]. vm_compute. reflexivity. }
  split; [exact Ec|]. split; [exact tx_payee_reachable|]. split; [vm_compute; reflexivity|]. exact Ea.
Qed.

(** The payee of the example has forty at the output of the seal: *)
Example C68_example : forall OG : OrdKey GlobalOut, exists batch sA' c sB' mc,
  compose bit_hashes cx_defs bx_pedersen false py_payer cx_apart cx_orders py_invoice cx_prev TapretFirst None 7 50%Z = Ok batch /\
  fascia_body bit_hashes (py_fascia batch) yes_witness py_payer = (sA', Ok tt) /\
  consign bit_hashes cn_merkle 10 sA' true fd_first [] (Some (h_seal bit_hashes ex_secret)) = Some (Ok c) /\
  accept_body bit_hashes cn_merkle c yes_witness tx_payee = (sB', Ok tt) /\ contract_state (sk_state sB') fd_first = Ok mc /\
  40 <= balance mc {| os_layer := Bitcoin; os_method := TapretFirst; os_txid := 10; os_vout := 1 |} 10.
Proof.
  intros OG. destruct (C68_nonvacuous OG) as (batch & sA' & c & sB' & Pay & E & Es & _ & _ & Pb & Fr & _ & Ec & ReB & Sx & Ac).
  destruct (C68_blinded_partial OG bit_hashes cn_merkle cx_defs bx_pedersen false py_payer cx_apart cx_orders py_invoice cx_prev TapretFirst None 7 50%Z batch fd_first 20 10 40 py_l
    (py_fascia batch) yes_witness sA' 10 true c tx_payee yes_witness sB' cn_secret ex_secret bit_collision_free Pay E eq_refl Es Pb Fr Ec ReB Sx Ac) as (outs & Ho & Hs).
  assert (Hm : exists mc, contract_state (sk_state sB') fd_first = Ok mc).
  { destruct Ho as [_ Ho]. destruct outs as [|[oo v] outs]; [discriminate Hs|]. destruct (Ho oo v (or_introl eq_refl)) as (_ & _ & bl & tag & ord & out & a & mc & _ & _ & _ & _ & _ & _ & _ & Em & _). eauto. }
  destruct Hm as [mc Em]. exists batch, sA', c, sB', mc. split; [exact E|]. split; [apply Pb|]. split; [exact Ec|]. split; [exact Ac|]. split; [exact Em|].
  rewrite <- Hs. eapply C68_balance; [exact Ho| |exact Em|left; split; [reflexivity|discriminate]].
  repeat split.
Qed.

Print Assumptions C68_blinded_partial.
Print Assumptions C68_witness_partial.
Print Assumptions C68_change_partial.
Print Assumptions C68_kept_partial.
Print Assumptions C68_blanks_partial.
Print Assumptions C68_balance.
