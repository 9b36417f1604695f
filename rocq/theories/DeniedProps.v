(** * Refused exports say why: property theorems C89 *)
From Verif Require Import Base StM Core Ser MergeModel MergeSpec MergeProofs ContainerModel ContainerSpec ContainerProofs.
From Verif Require Import StateModel StateSpec StateProofs StashModel StashSpec StashProofs StashAgain StashProps.
From Verif Require Import StockModel StockProofs StockAgain ConsignModel ConsignSpec ConsignProofs ConsignAccept ConsignProps FasciaProps StockProps StateProps.
From Verif Require Import TransferProofs TransferSpec TransferProps ExportSpec ExportProofs ExportProps QueryProofs PIndexModel PIndexSpec PIndexProofs DeniedSpec DeniedProofs.
Local Open Scope N_scope.

Lemma reachable_sorted {OG : OrdKey GlobalOut} H K s : reachable H K s -> stash_sorted (sk_stash s).
Proof. intros (l & _ & ->). apply (stock_filed H K l). Qed.

(** C89: the error with which an export is refused names something which is the case. *)
Theorem C89_export : forall (OG : OrdKey GlobalOut) H K s fuel transfer cid outputs secret e,
  collision_free H -> reachable H K s -> consign H K fuel s transfer cid outputs secret = Some (Err e) ->
  export_reason K H s cid outputs secret e.
Proof.
  intros OG H K s fuel transfer cid outputs secret e HC Re E.
  exact (consign_err H K s cid outputs secret (reachable_indexed H K s Re) (reachable_sorted H K s Re) fuel transfer e (reachable_sound H HC K s Re) E).
Qed.

(** And it is one: where it is the case, the export can not succeed. *)
Lemma chosen_known s cid outputs secret bid : (forall id, found_history s cid outputs secret id -> exists t, known_op s id t) ->
  bundle_of_history s cid outputs secret bid -> exists id t, found_history s cid outputs secret id /\ known_in s id bid t.
Proof.
  intros Xk (id & Hh & Ho). destruct (Xk _ Hh) as (t & bid' & Hk). pose proof Hk as (Ho' & _). cbn [states] in Ho, Ho'.
  rewrite Ho in Ho'. apply Some_inj in Ho'. subst bid'. eauto.
Qed.

Theorem C89_refuses : forall (OG : OrdKey GlobalOut) H K s fuel transfer cid outputs secret e c,
  collision_free H -> no_cycles H -> reachable H K s -> export_reason K H s cid outputs secret e ->
  consign H K fuel s transfer cid outputs secret <> Some (Ok c).
Proof.
  intros OG H K s fuel transfer cid outputs secret e c HC Nc Re R E.
  assert (X : exportable H K s cid outputs secret).
  { apply (C63_export OG H K s transfer cid outputs secret HC Nc Re). eauto. }
  assert (Kn : forall bid, bundle_of_history s cid outputs secret bid ->
    exists id t w a b, found_history s cid outputs secret id /\ known_in s id bid t /\ chosen s bid w /\ anchored K s bid w a b).
  { intros bid Hb. destruct (chosen_known _ _ _ _ _ (xp_known _ _ _ _ _ _ X) Hb) as (id & t & Hh & Hk).
    destruct (xp_bundle _ _ _ _ _ _ X id bid t Hh Hk) as (w & a & b & Ch & An). exists id, t, w, a, b. auto. }
  assert (Tw : forall bid bid' w b b', bundle_of_history s cid outputs secret bid -> bundle_of_history s cid outputs secret bid' ->
    chosen s bid w -> chosen s bid' w -> mget bid (st_bundles (sk_stash s)) = Some b -> mget bid' (st_bundles (sk_stash s)) = Some b' ->
    b_method b = b_method b' -> bid = bid').
  { intros bid bid' w b b' Hb Hb' Ch Ch' Eb Eb' Em.
    destruct (chosen_known _ _ _ _ _ (xp_known _ _ _ _ _ _ X) Hb) as (id & t & Hh & Hk).
    destruct (chosen_known _ _ _ _ _ (xp_known _ _ _ _ _ _ X) Hb') as (id' & t' & Hh' & Hk').
    exact (xp_methods _ _ _ _ _ _ X id bid t id' bid' t' w b b' Hh Hk Hh' Hk' Ch Ch' Eb Eb' Em). }
  pose proof (xp_defined _ _ _ _ _ _ X) as (g & si & ifs & D1 & D2 & D3 & D4 & D5 & D6 & D7 & D8 & D9).
  assert (Un : forall ifs', found_ifaces (sk_stash s) si ifs' -> ifs' = ifs).
  { unfold found_ifaces. clear D4 D5 D6 D7 D8 D9. revert D3. generalize (si_impls si) as im. intros im F2. 
    induction F2 as [|p q l1 l2 [E1 E2] F2 IH]; intros ifs' F2'; inversion F2' as [|p' q' l1' l2' [E1' E2'] F3]; subst; [reflexivity|].
    f_equal; [|apply IH, F3]. destruct q, q'. cbn [fst snd] in *. rewrite E2 in E2'. apply Ok_inj in E2'. congruence. }
  assert (Ds : forall (P : Operation -> SchemaIfaces -> Prop), (exists g0 si0, mget cid (st_geneses (sk_stash s)) = Some g0 /\
     mget (g_schema g0) (st_schemata (sk_stash s)) = Some si0 /\ P g0 si0) -> P g si).
  { intros P (g0 & si0 & Y1 & Y2 & Y3). rewrite D1 in Y1. apply Some_inj in Y1. subst g0. rewrite D2 in Y2. apply Some_inj in Y2. subst si0. exact Y3. }
  assert (Lk : schema_lacks (sk_stash s) si e -> False).
  { destruct e as [[ | | | | | |name|lid| | | | ]| | | | | | | | | | | |tid|lid]; cbn [schema_lacks]; try contradiction.
    - intros (Hi & En). exact (D6 _ Hi En).
    - intros (En & [Hi|(name & i & Hn & Ei & Hid)]); [exact (D4 _ Hi En)|].
      unfold mkeys in Hn. apply in_map_iff in Hn as ([nm im] & <- & Hin). cbn [fst] in Ei.
      assert (Y : exists im', In (i, im') ifs).
      { clear - D3 Hin Ei. induction D3 as [|p q l1 l2 [E1 E2] F2 IH]; [destruct Hin|]. destruct Hin as [->|Hin].
        - cbn [fst] in E2. rewrite Ei in E2. apply Ok_inj in E2. destruct q as [i' im']. cbn [fst] in E2. subst i'. exists im'. left. reflexivity.
        - destruct (IH Hin) as (im' & Y). exists im'. right. exact Y. }
      destruct Y as (im' & Y). exact (D5 _ _ _ Y Hid En).
    - intros (_ & Na). exact (Na D7). }
  clear E.
  destruct e as [[ | | | | |sid|name|lid|gid|bid|oid|w]|[ | w| | |]|[ic|iid|o oc| | | | | ]| | | | |[id]|[w|w]|bid id|bid c0|w bid c0|tid|lid];
    cbn [export_reason] in R; try contradiction.
  - destruct R as (g0 & R1 & R2 & R3). rewrite D1 in R1. apply Some_inj in R1. subst g0. congruence.
  - exact (Lk (Ds (fun _ si => schema_lacks (sk_stash s) si _) R)).
  - destruct R as [_ R]. congruence.
  - destruct R as [Hb R]. destruct (Kn _ Hb) as (id & t & w & a & b & _ & _ & _ & (Eb & _)). congruence.
  - destruct R as (bid & Hb & Ch & R). destruct (Kn _ Hb) as (id & t & w' & a & b & _ & _ & Ch' & (_ & _ & _ & c1 & sw & an & _ & Ew & _)).
    rewrite (chosen_fun _ _ _ _ Ch Ch') in R. congruence.
  - destruct R as (bid & Hb & Fw & Hn & Hl). destruct (Kn _ Hb) as (id & t & w' & a & b & _ & _ & (Fw' & (o & Eo & No) & Hl') & _).
    destruct (cmp w w') eqn:Ec.
    + apply cmp_eq in Ec. subst w'. congruence.
    + rewrite (Hl' _ Fw Ec) in Hn. discriminate.
    + rewrite cmp_opp in Ec. destruct (cmp w' w) eqn:Ec'; try discriminate. rewrite (Hl _ Fw' Ec') in Eo. congruence.
  - destruct R as (bid & Hb & Ha). destruct (Kn _ Hb) as (id & t & w' & a & b & _ & _ & (Fw' & (o & Eo & No) & _) & _).
    rewrite (Ha _ Fw') in Eo. congruence.
  - destruct R as [_ R]. exact (xp_contract _ _ _ _ _ _ X R).
  - destruct R as (Hh & R). destruct (xp_known _ _ _ _ _ _ X _ Hh) as (t & bid & (Ho & _)). exact (R _ Ho).
  - destruct R as (_ & Ho & R). apply in_map_iff in Ho as (o' & <- & Ho). destruct (xp_outputs _ _ _ _ _ _ X _ Ho) as (out & oo & Eo & F). exact (R _ _ F Eo).
  - destruct R as (g0 & si0 & ifs0 & R1 & R2 & R3 & R4). rewrite D1 in R1. apply Some_inj in R1. subst g0. rewrite D2 in R2. apply Some_inj in R2. subst si0.
    rewrite (Un _ R3) in R4. exact (R4 D8).
  - destruct R as (g0 & si0 & ifs0 & R1 & R2 & R3 & R4). rewrite D1 in R1. apply Some_inj in R1. subst g0. rewrite D2 in R2. apply Some_inj in R2. subst si0.
    rewrite (Un _ R3) in R4. exact (R4 D9).
  - exact (R (xp_terminals_fit _ _ _ _ _ _ X)).
  - exact (R (xp_bundles_fit _ _ _ _ _ _ X)).
  - destruct R as ((id' & t' & i & Hh & Hk' & Hi & Ei) & Hn & bid & t & b & Hk & Eb & Nl). apply Nl.
    subst id. exact (xp_listed _ _ _ _ _ _ X id' t' i bid t b Hh Hk' Hi Hn Hk Eb).
  - destruct R as (bids & Nd & Len & Hb). destruct bids as [|b1 [|b2 [|b3 [|]]]]; try discriminate Len.
    destruct (Hb b1) as [B1 C1]; [cbn; auto|]. destruct (Hb b2) as [B2 C2]; [cbn; auto|]. destruct (Hb b3) as [B3 C3]; [cbn; auto|].
    destruct (Kn _ B1) as (_ & _ & _ & _ & x1 & _ & _ & _ & (E1 & _)), (Kn _ B2) as (_ & _ & _ & _ & x2 & _ & _ & _ & (E2 & _)), (Kn _ B3) as (_ & _ & _ & _ & x3 & _ & _ & _ & (E3 & _)).
    inversion Nd as [|? ? N1 Nd1]; subst. inversion Nd1 as [|? ? N2 _]; subst. cbn [In] in N1, N2.
    pose proof (Tw _ _ _ _ _ B1 B2 C1 C2 E1 E2) as T1. pose proof (Tw _ _ _ _ _ B1 B3 C1 C3 E1 E3) as T2. pose proof (Tw _ _ _ _ _ B2 B3 C2 C3 E2 E3) as T3.
    destruct (b_method x1), (b_method x2), (b_method x3);
      first [specialize (T1 eq_refl); apply N1; auto; fail|specialize (T2 eq_refl); apply N1; auto; fail|specialize (T3 eq_refl); apply N2; auto; fail].
  - destruct R as (bid & bid' & b & b' & Nb & B1 & C1 & E1 & B2 & C2 & E2 & Em). exact (Nb (Tw _ _ _ _ _ B1 B2 C1 C2 E1 E2 Em)).
  - destruct R as (Hh & Ho & b & Eb & En). destruct (xp_known _ _ _ _ _ _ X _ Hh) as (t & bid' & (Ho' & b' & Eb' & Et')).
    cbn [states] in Ho, Ho'. rewrite Ho in Ho'. apply Some_inj in Ho'. subst bid'. congruence.
  - destruct R as (Hb & Fc & b & w & sw & Eb & Ch & Ew & Ea).
    destruct (Kn _ Hb) as (id & t & w' & a & b' & _ & _ & Ch' & (Eb' & _ & _ & c1 & sw' & an & Fc' & Ew' & Ea' & _)).
    pose proof (chosen_fun _ _ _ _ Ch Ch') as <-. rewrite Ew in Ew'. apply Some_inj in Ew'. subst sw'. rewrite Eb in Eb'. apply Some_inj in Eb'. subst b'.
    unfold anchor_for in Ea. congruence.
  - destruct R as (Hb & Fc & b & sw & an & Eb & Ch & Ew & Ea & Ep).
    destruct (Kn _ Hb) as (id & t & w' & a & b' & _ & _ & Ch' & (Eb' & _ & _ & c1 & sw' & an' & Fc' & Ew' & Ea' & Ep' & _)).
    pose proof (chosen_fun _ _ _ _ Ch Ch') as <-. rewrite Ew in Ew'. apply Some_inj in Ew'. subst sw'. rewrite Eb in Eb'. apply Some_inj in Eb'. subst b'.
    unfold anchor_for in Ea. cbn [states] in Fc, Fc'. rewrite Fc in Fc'. apply Some_inj in Fc'. subst c1. congruence.
  - exact (Lk (Ds (fun _ si => schema_lacks (sk_stash s) si _) R)).
  - exact (Lk (Ds (fun _ si => schema_lacks (sk_stash s) si _) R)).
Qed.

(** Kits say why as well. *)
Theorem C89_kit : forall (OG : OrdKey GlobalOut) H K s schema e, reachable H K s ->
  export_schema (sk_stash s) schema = Err e -> kit_reason (sk_stash s) schema e.
Proof.
  intros OG H K s schema e (l & _ & ->). destruct (stock_filed H K l) as [F So]. exact (kit_err H _ _ _ F So).
Qed.

(** *** Examples: the transaction of the payment is archived; *)
Definition dn_archive : Resolver :=
  fun w => if w_txid w =? w_txid (fascia_witness_id (fx_fascia tx_bundle)) then Some Archived else Some Tentative.
Example C89_nonvacuous : forall OG : OrdKey GlobalOut,
  let s := fst (stock_body bit_hashes cn_merkle (SkUpdate dn_archive 0) tx_paid) in
  collision_free bit_hashes /\ no_cycles bit_hashes /\ reachable bit_hashes cn_merkle s /\
  consign bit_hashes cn_merkle 10 s true cn_cid [] (Some (h_seal bit_hashes ex_secret)) = Some (Err (CsState AbsentValidWitness)) /\
  consign bit_hashes cn_merkle 10 s false (cn_cid + 1) [] None = Some (Err (CsIndex (PIndexModel.ContractAbsent (cn_cid + 1)))).
Proof.
  intros OG s. split; [exact bit_collision_free|]. split; [exact bit_no_cycles|].
  split; [apply reachable_more; [apply tx_paid_reachable|exact Logic.I]|]. split; vm_compute; reflexivity.
Qed.
(** a bundle was accepted a second time with an operation which it did not show before (C36); *)
Example C89_concealed : forall OG : OrdKey GlobalOut,
  let s := stock_after bit_hashes cn_merkle sk_empty [SkAccept cn_hidden yes_witness; SkAccept (cn_cons bit_hashes [cn_other] cn_a) yes_witness] in
  reachable bit_hashes cn_merkle s /\
  consign bit_hashes cn_merkle 10 s true cn_cid [] (Some 3) =
    Some (Err (CsConcealed (bundle_id bit_hashes (cn_bundle bit_hashes [cn_first bit_hashes; cn_other])) (op_id bit_hashes cn_other))).
Proof.
  intros OG s. split; [|vm_compute; reflexivity]. eexists. split; [|reflexivity].
  intros c [<-|[<-|[]]]; apply cons_okb_ok; vm_compute; reflexivity.
Qed.
(** a consignment was refused by the stash when its index was written already (C32). *)
Definition dn_merkle : Merkle := {| mk_with := fun _ _ _ => None; mk_proof := fun _ k c => mget c k |}.
Example C89_torn : forall OG : OrdKey GlobalOut,
  let s := stock_after bit_hashes dn_merkle sk_empty [SkAccept (cn_cons bit_hashes [] cn_a) yes_witness] in
  reachable bit_hashes dn_merkle s /\
  consign bit_hashes dn_merkle 10 s true cn_cid [] (Some cn_secret) =
    Some (Err (CsStash (StashModel.BundleAbsent (bundle_id bit_hashes (cn_bundle bit_hashes [cn_last bit_hashes cn_a]))))) /\
  export_schema (sk_stash s) 5 = Err (CsStash (SchemaAbsent 5)).
Proof.
  intros OG s. split; [|split; vm_compute; reflexivity]. eexists. split; [|reflexivity].
  intros c [<-|[]]; apply cons_okb_ok; vm_compute; reflexivity.
Qed.

Print Assumptions C89_export.
Print Assumptions C89_refuses.
Print Assumptions C89_kit.
