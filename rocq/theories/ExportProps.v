(** * When a contract can be exported: property theorems C63 *)
From Verif Require Import Base StM Core Ser MergeModel MergeSpec MergeProofs ContainerModel ContainerSpec ContainerProofs.
From Verif Require Import PIndexModel PIndexSpec PIndexProofs StateModel StateSpec StateProofs StashModel StashSpec StashProofs StashAgain StashProps.
From Verif Require Import StockModel StockProofs StockAgain ConsignModel ConsignSpec ConsignProofs ConsignAccept ConsignProps FasciaProps StockProps StateProps.
From Verif Require Import TransferProofs TransferSpec TransferProps ExportSpec ExportProofs.
Local Open Scope N_scope.

(** C63: an export succeeds if and only if the contract is [exportable]. *)
Theorem C63_export : forall (OG : OrdKey GlobalOut) H K s transfer cid outputs secret,
  collision_free H -> no_cycles H -> reachable H K s ->
  ((exists fuel c, consign H K fuel s transfer cid outputs secret = Some (Ok c)) <-> exportable H K s cid outputs secret).
Proof.
  intros OG H K s transfer cid outputs secret HC Nc Re. pose proof (reachable_sound H HC K s Re) as Sd.
  apply consign_iff; [exact Sd|].
  destruct Nc as (rank & Hr). exists rank. intros id t i (bid & Ki) Hin. rewrite <- (known_keyed H s id bid t Sd Ki). apply Hr, Hin.
Qed.

(** So an export which fails has a reason in the stock, and it does not help to wait for more
    rounds; a reason for one kind of consignment is one for the other. *)
Corollary C63_failed : forall (OG : OrdKey GlobalOut) H K s transfer transfer' cid outputs secret fuel r,
  collision_free H -> no_cycles H -> reachable H K s ->
  consign H K fuel s transfer cid outputs secret = Some r -> is_ok r = false ->
  ~ exportable H K s cid outputs secret /\ forall fuel' c, consign H K fuel' s transfer' cid outputs secret <> Some (Ok c).
Proof.
  intros OG H K s transfer transfer' cid outputs secret fuel r HC Nc Re E Ef.
  assert (Nx : ~ exportable H K s cid outputs secret).
  { intros X. apply (C63_export OG H K s transfer cid outputs secret HC Nc Re) in X. destruct X as (fuel' & c & E').
    pose proof (consign_more H K s cid outputs secret fuel fuel' transfer _ E) as E1.
    pose proof (consign_more H K s cid outputs secret fuel' fuel transfer _ E') as E2. rewrite Nat.add_comm, E1 in E2.
    apply Some_inj in E2. subst r. discriminate Ef. }
  split; [exact Nx|]. intros fuel' c E'. apply Nx.
  apply (C63_export OG H K s transfer' cid outputs secret HC Nc Re). eauto.
Qed.

(** Otherwise it ends with an error; if two of the outputs found are on the secret seal in one
    bundle, possibly with a panic (C35). *)
Corollary C63_otherwise : forall (OG : OrdKey GlobalOut) H K s transfer cid outputs secret,
  collision_free H -> no_cycles H -> reachable H K s -> ~ exportable H K s cid outputs secret ->
  exists fuel r, (forall more, consign H K (fuel + more) s transfer cid outputs secret = Some r) /\ is_ok r = false /\
    ((forall x, secret = Some x -> one_terminal H s cid outputs x) -> exists e, r = Err e).
Proof.
  intros OG H K s transfer cid outputs secret HC Nc Re Nx.
  destruct (C35_ends OG H K s transfer cid outputs secret HC Nc Re) as (fuel & r & Er). exists fuel, r. split; [exact Er|].
  pose proof (Er O) as E0. rewrite Nat.add_0_r in E0. split.
  - destruct r as [c|e|]; try reflexivity. exfalso. apply Nx. apply (C63_export OG H K s transfer cid outputs secret HC Nc Re). eauto.
  - intros Ot. destruct r as [c|e|].
    + exfalso. apply Nx. apply (C63_export OG H K s transfer cid outputs secret HC Nc Re). eauto.
    + eauto.
    + destruct (C35_no_panic_partial OG H K s fuel transfer cid outputs secret HC Re Ot E0).
Qed.

(** *** Examples: the payment of C62 can be exported; *)
Lemma fascia_reachable {OG : OrdKey GlobalOut} H K f r s s' e : reachable H K s -> stock_call_ok H (SkFascia f r) ->
  fascia_body H f r s = (s', e) -> reachable H K s'.
Proof.
  intros R Of Ef. pose proof (reachable_more H K s (SkFascia f r) R Of) as R'. cbn [stock_body] in R'. rewrite Ef in R'. exact R'.
Qed.
Lemma tx_paid_reachable {OG : OrdKey GlobalOut} : reachable bit_hashes cn_merkle tx_paid.
Proof.
  destruct (C62_nonvacuous OG) as (HC & R1 & _ & Of & Ef & _). exact (fascia_reachable _ _ _ _ _ _ _ R1 Of Ef).
Qed.
Example C63_nonvacuous : forall OG : OrdKey GlobalOut,
  exportable bit_hashes cn_merkle tx_paid cn_cid [] (Some (h_seal bit_hashes ex_secret)).
Proof.
  intros OG. destruct (C62_nonvacuous OG) as (HC & _ & _ & _ & _ & _ & _ & _ & _ & _ & _ & _ & c & s' & E & _).
  apply (C63_export OG bit_hashes cn_merkle tx_paid true cn_cid [] _ HC bit_no_cycles tx_paid_reachable).
  eauto.
Qed.
(** with its transaction archived it can not. *)
Example C63_archived : forall OG : OrdKey GlobalOut,
  let s := fst (stock_body bit_hashes cn_merkle (SkUpdate (fun w => if w_txid w =? w_txid (fascia_witness_id (fx_fascia tx_bundle)) then Some Archived else Some Tentative) 0) tx_paid) in
  ~ exportable bit_hashes cn_merkle s cn_cid [] (Some (h_seal bit_hashes ex_secret)).
Proof.
  intros OG s.
  assert (E : exists e, consign bit_hashes cn_merkle 10 s true cn_cid [] (Some (h_seal bit_hashes ex_secret)) = Some (Err e)).
  { eexists. vm_compute. reflexivity. }
  destruct E as (e & E).
  apply (C63_failed OG bit_hashes cn_merkle s true true cn_cid [] _ 10 (Err e) bit_collision_free bit_no_cycles); [|exact E|reflexivity].
  apply reachable_more; [apply tx_paid_reachable|exact I].
Qed.

Print Assumptions C63_export.
Print Assumptions C63_failed.
Print Assumptions C63_otherwise.
