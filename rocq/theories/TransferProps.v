(** * From the sender to the receiver: property theorems C62 *)
From Verif Require Import Base StM Core Ser MergeModel MergeSpec MergeProofs ContainerModel ContainerSpec ContainerProofs.
From Verif Require Import PIndexModel PIndexSpec PIndexProofs StateModel StateSpec StateProofs StashModel StashSpec StashProofs StashAgain StashProps.
From Verif Require Import StockModel StockProofs StockAgain ConsignModel ConsignSpec ConsignProofs ConsignAccept ConsignProps FasciaProps StockProps StateProps.
From Verif Require Import TransferProofs TransferSpec.
Local Open Scope N_scope.

Lemma to_receives {OG : OrdKey GlobalOut} s r cid k oo x st w out b mc :
  r w <> None -> mget w (ms_witnesses (sk_state s)) = r w ->
  seal_output (Some w) x out -> states (sk_index s) (FOut cid out oo) ->
  oa_opout b = oo -> oa_seal b = out -> oa_state b = st -> (s_txid x = None -> oa_witness b = Some w) ->
  contract_state (sk_state s) cid = Ok mc -> sstates (sk_state s) (SFOut cid k b) -> (In b (outs_all k mc) <-> live (sk_state s) (oa_witness b)) ->
  receives s r cid k oo x st w.
Proof.
  intros Rw Mw So Fo O1 O2 O3 O4 Cs O6 O5. destruct (r w) as [ord|] eqn:Er; [|congruence].
  exists ord, out, b, mc. do 9 (split; [assumption|]). split; [exact O5|]. intros Hx. specialize (O4 Hx).
  split; [exact O4|]. rewrite O5, O4. cbn [live]. rewrite Mw. split.
  - intros (o & Eo & No). apply Some_inj in Eo. subst o. exact No.
  - intros No. exists ord. auto.
Qed.

(** C62, a payment to an invoice with a blinded seal: the sender exports the contract for the
    secret seal, the receiver has that seal and accepts the consignment.  Then every output of
    a known transition which is assigned to the seal, with its state known to the sender, is
    seen by the receiver, under a witness which is one of the bundle for the sender. *)
Theorem C62_secret : forall (OG : OrdKey GlobalOut) H K fuel sA sB transfer cid outputs x c r sB' id bid t ty ta no st,
  collision_free H -> reachable H K sA -> reachable H K sB ->
  seal_secret H (sk_stash sB) (h_seal H x) = Some x ->
  consign H K fuel sA transfer cid outputs (Some (h_seal H x)) = Some (Ok c) ->
  accept_body H K c r sB = (sB', Ok tt) ->
  known_in sA id bid t -> id <> cid ->
  In (ty, ta) (op_assigns t) -> nth_error (ta_list ta) no = Some (ConfidentialSeal (h_seal H x) st) ->
  let oo := {| oo_op := id; oo_ty := ty; oo_no := N.of_nat no |} in
  found sA cid outputs (Some (h_seal H x)) oo ->
  exists w, states (sk_index sA) (FWitness bid w) /\ live (sk_state sA) (Some w) /\
    receives sB' r cid (ta_kind ta) oo x st w.
Proof.
  intros OG H K fuel sA sB transfer cid outputs x c r sB' id bid t ty ta no st HC ReA ReB Sx E Ac Ki Ne Hta Hn oo Rq.
  destruct (received_secret H HC K _ _ _ _ _ _ _ _ _ _ _ _ _ _ _ _ _ ReA ReB Sx E Ac Ki Ne Hta Hn Rq)
    as (w & out & b & mc & Fw & Lw & Rw & Mw & So & Fo & O1 & O2 & O3 & O4 & Cs & O6 & O5).
  exists w. split; [exact Fw|]. split; [exact Lw|]. eapply to_receives; eassumption.
Qed.

(** the same of every output the sender can see, in any transition of the history; *)
Theorem C62_revealed : forall (OG : OrdKey GlobalOut) H K fuel sA sB transfer cid outputs secret c r sB' id bid t ty ta no x st,
  collision_free H -> reachable H K sA -> reachable H K sB ->
  consign H K fuel sA transfer cid outputs secret = Some (Ok c) ->
  accept_body H K c r sB = (sB', Ok tt) ->
  found_history sA cid outputs secret id -> known_in sA id bid t ->
  In (ty, ta) (op_assigns t) -> nth_error (ta_list ta) no = Some (Revealed x st) ->
  exists w, states (sk_index sA) (FWitness bid w) /\ live (sk_state sA) (Some w) /\
    receives sB' r cid (ta_kind ta) {| oo_op := id; oo_ty := ty; oo_no := N.of_nat no |} x st w.
Proof.
  intros OG H K fuel sA sB transfer cid outputs secret c r sB' id bid t ty ta no x st HC ReA ReB E Ac Hi Ki Hta Hn.
  destruct (received_revealed H HC K _ _ _ _ _ _ _ _ _ _ _ _ _ _ _ _ _ _ ReA ReB E Ac Hi Ki Hta Hn)
    as (w & out & b & mc & Fw & Lw & Rw & Mw & So & Fo & O1 & O2 & O3 & O4 & Cs & O6 & O5).
  exists w. split; [exact Fw|]. split; [exact Lw|]. eapply to_receives; eassumption.
Qed.

(** the same of the outputs of the genesis, which have no witness; *)
Theorem C62_genesis : forall (OG : OrdKey GlobalOut) H K fuel sA sB transfer cid outputs secret c r sB' g ty ta no x st,
  collision_free H -> reachable H K sA -> reachable H K sB ->
  consign H K fuel sA transfer cid outputs secret = Some (Ok c) ->
  accept_body H K c r sB = (sB', Ok tt) ->
  mget cid (st_geneses (sk_stash sA)) = Some g ->
  In (ty, ta) (op_assigns g) -> nth_error (ta_list ta) no = Some (Revealed x st) ->
  let oo := {| oo_op := cid; oo_ty := ty; oo_no := N.of_nat no |} in
  exists out a mc, seal_output None x out /\ states (sk_index sB') (FOut cid out oo) /\
    oa_opout a = oo /\ oa_seal a = out /\ oa_state a = st /\ contract_state (sk_state sB') cid = Ok mc /\
    sstates (sk_state sB') (SFOut cid (ta_kind ta) a) /\ (In a (outs_all (ta_kind ta) mc) <-> live (sk_state sB') (oa_witness a)).
Proof.
  intros OG H K fuel sA sB transfer cid outputs secret c r sB' g ty ta no x st HC ReA ReB E Ac Hg Hta Hn.
  exact (received_genesis H HC K _ _ _ _ _ _ _ _ _ _ _ _ _ _ _ _ ReA ReB E Ac Hg Hta Hn).
Qed.

(** and nothing else is seen: an allocation the receiver did not have is one of the genesis,
    or of a transition of the sender's, with a witness of its bundle which is not archived. *)
Theorem C62_only : forall (OG : OrdKey GlobalOut) H K fuel sA sB transfer cid outputs secret c r sB' k a,
  collision_free H -> reachable H K sA -> reachable H K sB ->
  consign H K fuel sA transfer cid outputs secret = Some (Ok c) ->
  fst (accept_body H K c r sB) = sB' ->
  sstates (sk_state sB') (SFOut cid k a) -> ~ sstates (sk_state sB) (SFOut cid k a) ->
  (exists g, mget cid (st_geneses (sk_stash sA)) = Some g /\ reveals H g OWGenesis k a) \/
  exists bid b id t w, mget bid (st_bundles (sk_stash sA)) = Some b /\ mget id (b_known b) = Some t /\
    states (sk_index sA) (FWitness bid w) /\ live (sk_state sA) (Some w) /\ pays H t k w a.
Proof.
  intros OG H K fuel sA sB transfer cid outputs secret c r sB' k a HC ReA ReB E Ac Hs Hn.
  destruct (received_only H HC K _ _ _ _ _ _ _ _ _ _ _ _ ReA ReB E Ac Hs Hn) as [Hg|(bid & b & t & t' & w & Eb & Ht & Fw & Lw & Mo & Rv)];
    [left; exact Hg|]. right.
  pose proof (reachable_sound H HC K sA ReA) as SdA. pose proof (go_bundle _ _ (sd_stash _ _ SdA) _ _ Eb) as Go.
  apply in_map_iff in Ht. destruct Ht as ([id t0] & Et & Hin). cbn in Et. subst t0.
  exists bid, b, id, t, w. split; [exact Eb|].
  split. { apply In_mget; [|exact Hin]. apply (fn_bundle _ _ (reachable_fine H HC K sA ReA) _ _ Eb). }
  split; [exact Fw|]. split; [exact Lw|].
  destruct Rv as (ty & ta & no & x & st & R1 & R2 & R3 & R4 & R5 & R6 & R7). cbn [op_witness] in *.
  rewrite (more_id H _ _ Mo) in R5. destruct Mo as [->|(y & ->)].
  - exists ty, ta, no, x, st. auto 10.
  - cbn [op_assigns reveal_op set_assigns] in R1. unfold mmap in R1. apply in_map_iff in R1.
    destruct R1 as ([ty0 ta0] & R1 & R0). injection R1 as <- <-. cbn [ta_list reveal_typed] in R3.
    rewrite nth_error_map in R3. destruct (nth_error (ta_list ta0) no) as [a0|] eqn:En; [|discriminate].
    apply Some_inj in R3. exists ty0, ta0, no, x, st. split; [exact R0|]. split; [exact R2|]. split; [|auto 10].
    destruct a0; cbn [reveal_assign] in R3; try discriminate R3.
    + destruct (_ =? _) in R3; discriminate R3.
    + match type of R3 with context [if ?q =? ?z then _ else _] => destruct (q =? z) eqn:Eq end; [|discriminate R3].
      apply N.eqb_eq in Eq. injection R3 as -> ->. right. rewrite En. congruence.
    + injection R3 as -> ->. left. exact En.
Qed.

(** What a stock exports is well formed, whatever it was asked for: it can be given to any
    stock, with any resolver, and the theorems on accepted consignments apply. *)
Theorem C62_well_formed : forall (OG : OrdKey GlobalOut) H K fuel s transfer cid outputs secret c r,
  collision_free H -> reachable H K s -> consign H K fuel s transfer cid outputs secret = Some (Ok c) ->
  stock_call_ok H (SkAccept c r).
Proof.
  intros OG H K fuel s transfer cid outputs secret c r HC Re E.
  apply (exported_ok H K s HC fuel transfer cid outputs secret c (reachable_sound H HC K s Re) (reachable_fine H HC K s Re) E).
Qed.

Lemma reachable_more {OG : OrdKey GlobalOut} H K s c : reachable H K s -> stock_call_ok H c ->
  reachable H K (fst (stock_body H K c s)).
Proof.
  intros (l & Hl & ->) Hc. exists (l ++ [c]). split.
  - intros d Hd. apply in_app_or in Hd as [Hd|[<-|[]]]; auto.
  - unfold stock_after. rewrite fold_left_app. reflexivity.
Qed.

(** The whole of a payment: the payer consumes the fascia of a transaction with a new bundle,
    exports the contract for the seal of the invoice, and the payee accepts.  The payee sees
    the output under the witness transaction of the fascia. *)
Theorem C62_paid : forall (OG : OrdKey GlobalOut) H K fuel sA f rA sA' cid b id t ty ta no x st transfer c sB r sB',
  collision_free H -> reachable H K sA -> reachable H K sB ->
  stock_call_ok H (SkFascia f rA) -> fascia_body H f rA sA = (sA', Ok tt) ->
  In (cid, b) (fascia_bundles f) -> NoDup (map (fun p => bundle_id H (snd p)) (fascia_bundles f)) ->
  new_bundle sA (bundle_id H b) -> In (id, t) (b_known b) -> id <> cid ->
  In (ty, ta) (op_assigns t) -> nth_error (ta_list ta) no = Some (ConfidentialSeal (h_seal H x) st) ->
  seal_secret H (sk_stash sB) (h_seal H x) = Some x ->
  consign H K fuel sA' transfer cid [] (Some (h_seal H x)) = Some (Ok c) ->
  accept_body H K c r sB = (sB', Ok tt) ->
  receives sB' r cid (ta_kind ta) {| oo_op := id; oo_ty := ty; oo_no := N.of_nat no |} x st (fascia_witness_id f).
Proof.
  intros OG H K fuel sA f rA sA' cid b id t ty ta no x st transfer c sB r sB' HC ReA ReB Okf Ef Hin Nd [Nb Nw] Ht Ne Hta Hn Sx E Ac.
  pose proof (reachable_sound H HC K sA ReA) as SdA.
  assert (ReA' : reachable H K sA').
  { replace sA' with (fst (stock_body H K (SkFascia f rA) sA)); [apply reachable_more; assumption|].
    cbn [stock_body]. rewrite Ef. reflexivity. }
  destruct (C57_indexed OG H K f rA sA sA' cid b HC ReA Ef Hin) as (_ & _ & Ix).
  destruct (Ix id t Ht) as (Io & Ia).
  destruct (C57_stored_partial OG H K f rA sA sA' cid b HC ReA Okf Ef Hin) as (_ & _ & St).
  destruct (St Nb Nd) as (Eb & _).
  assert (Asg : assigned t ty no (ConfidentialSeal (h_seal H x) st)) by (exists ta; auto).
  destruct (Ia ty no _ Asg) as (_ & It). specialize (It (h_seal H x) eq_refl).
  apply opouts_by_terminals_spec in It; [|apply (sd_index _ _ (reachable_sound H HC K sA' ReA'))].
  destruct It as (sec & [<-|[]] & It).
  assert (Ki : known_in sA' id (bundle_id H b) t).
  { split.
    - unfold bundle_id_for_op in Io. cbn [states]. destruct (mget id (mi_op_bundle (sk_index sA'))); [apply Ok_inj in Io; congruence|discriminate Io].
    - exists b. split; [exact Eb|]. apply In_mget; [apply (Okf _ Hin)|exact Ht]. }
  destruct (C62_secret OG H K fuel sA' sB transfer cid [] x c r sB' id (bundle_id H b) t ty ta no st HC ReA' ReB) as (w & Fw & _ & Rc);
    try assumption.
  - right. exists (h_seal H x). auto.
  - replace (fascia_witness_id f) with w; [exact Rc|]. apply (fascia_ok H K) in Ef. cbv zeta in Ef.
    destruct Ef as (_ & (_ & Ei) & _). rewrite Ei in Fw. apply calls_sound in Fw; [|apply SdA].
    destruct Fw as [Fw|(ic & Hic & An)]; [destruct (Nw _ Fw)|]. apply in_map_iff in Hic. destruct Hic as (p & <- & _).
    cbn [ix_of announces bundle_announces] in An. unfold bundle_announces in An.
    destruct An as [An|[An|(o & t0 & _ & [An|(? & ? & ? & _ & [(? & ? & _ & _ & An)|(? & _ & An)])])]]; try discriminate An.
    injection An as _ ->. reflexivity.
Qed.

(** *** Example: the payer has the stock of C34 with its last output open, and spends it to the
    seal of the payee, with a change output of its own. *)

Definition tx_own : list Assign := [Revealed (cn_seal 102 2) RVoid].
Definition tx_trans : Operation := cn_op OpTransition 2 [cn_in (cn_id tx_own)] [Revealed fx_out RVoid; ConfidentialSeal cn_secret RVoid].
Definition tx_bundle : Bundle := cn_bundle bit_hashes [tx_trans].
Definition tx_id : N := op_id bit_hashes tx_trans.
Definition tx_payer {OG : OrdKey GlobalOut} : Stock := cn_stock [] tx_own.
Definition tx_paid {OG : OrdKey GlobalOut} : Stock := fst (fascia_body bit_hashes (fx_fascia tx_bundle) yes_witness tx_payer).
Definition tx_payee {OG : OrdKey GlobalOut} : Stock := stock_after bit_hashes cn_merkle sk_empty [SkSeal ex_secret].

Lemma tx_payer_reachable {OG : OrdKey GlobalOut} : reachable bit_hashes cn_merkle tx_payer.
Proof. unfold tx_payer. apply (cn_reachable [] tx_own). vm_compute. reflexivity. Qed.
Lemma tx_payee_reachable {OG : OrdKey GlobalOut} : reachable bit_hashes cn_merkle tx_payee.
Proof. exists [SkSeal ex_secret]. split; [|reflexivity]. intros c [<-|[]]. exact I. Qed.

Example C62_nonvacuous : forall OG : OrdKey GlobalOut, let f := fx_fascia tx_bundle in
  collision_free bit_hashes /\ reachable bit_hashes cn_merkle tx_payer /\ reachable bit_hashes cn_merkle tx_payee /\
  stock_call_ok bit_hashes (SkFascia f yes_witness) /\ fascia_body bit_hashes f yes_witness tx_payer = (tx_paid, Ok tt) /\
  In (cn_cid, tx_bundle) (fascia_bundles f) /\ NoDup (map (fun p => bundle_id bit_hashes (snd p)) (fascia_bundles f)) /\
  new_bundle tx_payer (bundle_id bit_hashes tx_bundle) /\ In (tx_id, tx_trans) (b_known tx_bundle) /\ tx_id <> cn_cid /\
  seal_secret bit_hashes (sk_stash tx_payee) (h_seal bit_hashes ex_secret) = Some ex_secret /\
  (exists ta, In (4, ta) (op_assigns tx_trans) /\ nth_error (ta_list ta) 1 = Some (ConfidentialSeal (h_seal bit_hashes ex_secret) RVoid)) /\
  exists c s', consign bit_hashes cn_merkle 10 tx_paid true cn_cid [] (Some (h_seal bit_hashes ex_secret)) = Some (Ok c) /\
    accept_body bit_hashes cn_merkle c yes_witness tx_payee = (s', Ok tt) /\ length (c_bundles c) = 3%nat.
Proof.
  intros OG f. split; [apply bit_collision_free|]. split; [apply tx_payer_reachable|]. split; [apply tx_payee_reachable|].
  split. { intros p [<-|[]]. apply bundle_okb_ok. vm_compute. reflexivity. }
  split. { unfold tx_paid. fold f. assert (Es : snd (fascia_body bit_hashes f yes_witness tx_payer) = Ok tt) by (vm_compute; reflexivity).
    destruct (fascia_body bit_hashes f yes_witness tx_payer) as [s1 e1]. cbn [fst snd] in *. subst e1. reflexivity. }
  split; [left; reflexivity|]. split; [repeat constructor; intros []|].
  split. { split; [vm_compute; reflexivity|]. intros w (ws & E & _).
    assert (En : mget (bundle_id bit_hashes tx_bundle) (mi_bundle_witness (sk_index tx_payer)) = None) by (vm_compute; reflexivity). congruence. }
  split; [left; reflexivity|]. split; [vm_compute; discriminate|]. split; [vm_compute; reflexivity|].
  split. { eexists. split; [left; reflexivity|]. vm_compute. reflexivity. }
  assert (E : match consign bit_hashes cn_merkle 10 tx_paid true cn_cid [] (Some (h_seal bit_hashes ex_secret)) with
              | Some (Ok c) => match snd (accept_body bit_hashes cn_merkle c yes_witness tx_payee) with
                               | Ok _ => Nat.eqb (length (c_bundles c)) 3 | _ => false end
              | _ => false end = true) by (vm_compute; reflexivity).
  destruct (consign _ _ _ _ _ _ _ _) as [[c|e|]|]; try discriminate E. exists c.
  destruct (accept_body bit_hashes cn_merkle c yes_witness tx_payee) as [s' [[]|e|]]; try discriminate E.
  exists s'. split; [reflexivity|]. split; [reflexivity|]. apply Nat.eqb_eq, E.
Qed.

(** The payee of the example sees the output: *)
Example C62_example : forall OG : OrdKey GlobalOut, exists c s',
  consign bit_hashes cn_merkle 10 tx_paid true cn_cid [] (Some (h_seal bit_hashes ex_secret)) = Some (Ok c) /\
  accept_body bit_hashes cn_merkle c yes_witness tx_payee = (s', Ok tt) /\
  receives s' yes_witness cn_cid KDeclarative {| oo_op := tx_id; oo_ty := 4; oo_no := 1 |} ex_secret RVoid
    (fascia_witness_id (fx_fascia tx_bundle)).
Proof.
  intros OG. destruct (C62_nonvacuous OG) as (HC & R1 & R2 & Of & Ef & Hin & Nd & Nb & Ht & Ne & Sx & (ta & Hta & Hn) & c & s' & Ec & Ea & _).
  exists c, s'. split; [exact Ec|]. split; [exact Ea|].
  assert (Ek : ta_kind ta = KDeclarative) by (destruct Hta as [Hta|[]]; injection Hta as <-; reflexivity). rewrite <- Ek.
  change 1 with (N.of_nat 1).
  eapply (C62_paid OG bit_hashes cn_merkle 10 tx_payer (fx_fascia tx_bundle) yes_witness tx_paid cn_cid tx_bundle); eassumption.
Qed.

Print Assumptions C62_secret.
Print Assumptions C62_revealed.
Print Assumptions C62_genesis.
Print Assumptions C62_only.
Print Assumptions C62_well_formed.
Print Assumptions C62_paid.
