(** * C87: the commitments which a wallet has to know are listed *)
From Verif Require Import Base StM Core HashExists Ser MergeSpec ContainerModel ContainerSpec StateModel StashModel StashSpec StashProofs StashProps StockModel StockProofs StockAgain StockProps.
From Verif Require Import ConsignSpec ConsignProps FasciaProps QueryProofs AcceptSpec TapretSpec TapretProofs.
Local Open Scope N_scope.

(** What is listed was said by a call, whether the call succeeded or not. *)
Theorem C87_announced : forall (OG : OrdKey GlobalOut) H K calls w root proof,
  In (w, (root, proof)) (stash_taprets (sk_stash (stock_after H K sk_empty calls))) ->
  exists c, In c calls /\ announces H K c w TapretFirst root proof.
Proof.
  intros OG H K calls w root proof X. apply taprets_has in X; [|apply (stock_filed H K calls)]. exact (has_announced H K calls _ _ _ _ X).
Qed.

(** What a successful call says is listed, and stays listed whatever is called after. *)
Theorem C87_listed : forall (OG : OrdKey GlobalOut) H K calls c more w root proof,
  snd (stock_body H K c (stock_after H K sk_empty calls)) = Ok tt ->
  announces H K c w TapretFirst root proof ->
  In (w, (root, proof)) (stash_taprets (sk_stash (stock_after H K sk_empty (calls ++ c :: more)))).
Proof.
  intros OG H K calls c more w root proof E An. apply taprets_has; [apply (stock_filed H K)|].
  assert (Es : stock_after H K sk_empty (calls ++ c :: more) = stock_after H K (fst (stock_body H K c (stock_after H K sk_empty calls))) more).
  { unfold stock_after. rewrite fold_left_app. reflexivity. }
  assert (Eb : stock_after H K sk_empty (calls ++ [c]) = fst (stock_body H K c (stock_after H K sk_empty calls))).
  { unfold stock_after. rewrite fold_left_app. reflexivity. }
  rewrite Es. apply has_kept.
  - rewrite <- Eb. apply by_id_after.
  - destruct (stock_body H K c (stock_after H K sk_empty calls)) as [s' e] eqn:Ec. cbn [fst snd] in *. subst e.
    eapply announced_has; [|exact Ec|exact An]. apply by_id_after.
Qed.

(** Each witness is listed once. *)
Theorem C87_once : forall (OG : OrdKey GlobalOut) H K calls,
  NoDup (map fst (stash_taprets (sk_stash (stock_after H K sk_empty calls)))).
Proof.
  intros OG H K calls. destruct (stock_filed H K calls) as [_ So]. apply so_witnesses in So. apply msorted_NoDup in So. unfold stash_taprets.
  induction (st_witnesses (sk_stash (stock_after H K sk_empty calls))) as [|[w x] m IH]; [constructor|]. cbn [filter_map fst snd].
  unfold mkeys in So. cbn [map fst] in So. inversion So as [|? ? Nw Nm]; subst. specialize (IH Nm).
  assert (Nh : ~ In w (map fst (filter_map (fun p : WitnessId * SealWitness => match sw_anchors (snd p) with
     | ASTapret a | ASDouble a _ => Some (fst p, (an_root a, an_dbc a)) | ASOpret _ => None end) m))).
  { intros Hi. apply Nw. apply in_map_iff in Hi as ([k v] & <- & Hi). apply filter_map_In in Hi as ([k' y] & Hy & E). cbn [fst snd] in *.
    apply in_map_iff. exists (k', y). split; [|exact Hy]. destruct (sw_anchors y); try discriminate; injection E as <- _; reflexivity. }
  destruct (sw_anchors x); cbn [map fst]; [constructor; assumption|exact IH|constructor; assumption].
Qed.

(** The listings of witnesses, bundles and extensions are those for which there is an answer,
    without repetition. *)
Theorem C87_ids : forall (OG : OrdKey GlobalOut) H K calls, let s := sk_stash (stock_after H K sk_empty calls) in
  (forall w, In w (stash_witness_ids s) <-> exists x, stash_witness s w = Ok x) /\ NoDup (stash_witness_ids s) /\
  (forall id, In id (stash_bundle_ids s) <-> exists b, stash_bundle s id = Ok b) /\ NoDup (stash_bundle_ids s) /\
  (forall id, In id (stash_extension_ids s) <-> exists e, stash_extension s id = Ok e) /\ NoDup (stash_extension_ids s).
Proof.
  intros OG H K calls s. destruct (stock_filed H K calls) as [_ So]. fold s in So.
  assert (L : forall {A B} `{OrdKey A} (m : omap A B) k (e : A -> StashError), In k (mkeys m) <-> exists x, ok_or (e k) (mget k m) = Ok x).
  { intros A B O m k e. destruct (mget k m) as [x|] eqn:E; cbn [ok_or].
    - split; [eauto|]. intros _. apply mget_In in E. unfold mkeys. apply in_map_iff. exists (k, x). auto.
    - split; [|intros (x & X); discriminate]. intros Hi. exfalso. apply mget_None_notin in E. exact (E Hi). }
  unfold stash_witness_ids, stash_bundle_ids, stash_extension_ids, stash_witness, stash_bundle, stash_extension.
  split; [intros w; apply L|]. split; [apply msorted_NoDup, So|]. split; [intros w; apply L|]. split; [apply msorted_NoDup, So|].
  split; [intros w; apply L|apply msorted_NoDup, So].
Qed.

(** *** Example: two witnesses of a consignment, and one of a payment *)
Definition tp_calls : list StockCall := [SkAccept (cn_cons bit_hashes [] cn_a) yes_witness; SkFascia (fx_fascia fx_bundle) yes_witness].
Example C87_nonvacuous : forall OG : OrdKey GlobalOut,
  snd (stock_body bit_hashes cn_merkle (SkFascia (fx_fascia fx_bundle) yes_witness) (stock_after bit_hashes cn_merkle sk_empty [SkAccept (cn_cons bit_hashes [] cn_a) yes_witness])) = Ok tt /\
  announces bit_hashes cn_merkle (SkFascia (fx_fascia fx_bundle) yes_witness) (fascia_witness_id (fx_fascia fx_bundle)) TapretFirst 1 0 /\
  length (stash_taprets (sk_stash (stock_after bit_hashes cn_merkle sk_empty tp_calls))) = 3%nat /\
  length (stash_bundle_ids (sk_stash (stock_after bit_hashes cn_merkle sk_empty tp_calls))) = 3%nat.
Proof.
  intros OG. split; [vm_compute; reflexivity|]. split; [|split; vm_compute; reflexivity].
  split; [reflexivity|]. eexists. split; [reflexivity|]. split; reflexivity.
Qed.

Print Assumptions C87_announced.
Print Assumptions C87_listed.
Print Assumptions C87_once.
Print Assumptions C87_ids.
