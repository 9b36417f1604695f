(** * A payment which was recorded can be handed over: property C90 *)
From Verif Require Import Base StM Core Ser MergeSpec ContainerModel ContainerSpec PIndexModel PIndexSpec PIndexProofs StateModel StateSpec StateProps.
From Verif Require Import StashModel StashSpec StashAgain StashProps StockModel StockAgain StockProofs StockProps ConsignModel ConsignSpec ConsignProofs ConsignProps TransferProps.
From Verif Require Import SupplySpec SupplyProps LedgerSpec LedgerProofs LedgerProps AgreeProps ReplicaSpec ReplicaProofs ReplicaProps ExportSpec ExportProps IsolationProps.
From Verif Require Import GrowSpec GrowProofs GrowMain FasciaProps HandSpec HandProofs HandMain.
Local Open Scope N_scope.

(** A stock which can export what a payment spends can, after recording it, export the payment
    for the secret seal it was made to; what it exports shows the transition and names the seal. *)
Theorem C90_secret : forall (OG : OrdKey GlobalOut) H K calls f r cid prev transfer fuel c0 x id t ty no a,
  collision_free H -> no_cycles H -> proves_known K -> paid H K calls f r cid prev ->
  let s := stock_after H K sk_empty calls in
  let s' := stock_after H K sk_empty (calls ++ [SkFascia f r]) in
  consign H K fuel s transfer cid prev None = Some (Ok c0) ->
  moved f cid id t -> id <> cid -> assigned t ty no a -> secret_of a = Some x -> pays_once H f x cid ->
  (forall oo, ~ states (sk_index s) (FTerm x oo)) ->
  (exists fuel' c, consign H K fuel' s' true cid [] (Some x) = Some (Ok c)) /\
  forall fuel' c, consign H K fuel' s' true cid [] (Some x) = Some (Ok c) ->
    reveals_op c id t /\ exists bid, mget bid (c_terminals c) = Some x.
Proof.
  intros OG H K calls f r cid prev transfer fuel c0 x id t ty no a HC Nc Pk P s s' Ex M Ne As Es Po Un.
  pose proof (paid_reachable H K calls f r cid prev P) as Re. pose proof (paid_reachable' H K calls f r cid prev P) as Re'.
  assert (X : exportable H K s cid prev None) by (apply (C63_export OG H K s transfer cid prev None HC Nc Re); eauto).
  pose proof (paid_secret H K calls f r cid prev HC Pk P x id t ty no a X M As Es Po Un) as X'. split.
  - apply (C63_export OG H K s' true cid [] (Some x) HC Nc Re'), X'.
  - intros fuel' c Ec.
    destruct (paid_moved H K calls f r cid prev HC P id t M) as (bid & b & Hk & _).
    assert (F : found s' cid [] (Some x) {| oo_op := id; oo_ty := ty; oo_no := N.of_nat no |}).
    { right. exists x. split; [reflexivity|]. apply (paid_index H K calls f r cid prev HC P). right. destruct M as (b1 & Hb & Ht). exists cid, b1. split; [exact Hb|].
      right. right. exists id, t. split; [exact Ht|]. right. exists ty, no, a. split; [exact As|]. right. exists x. auto. }
    assert (Fh : found_history s' cid [] (Some x) id) by (apply reached_start; [eexists; split; [exact F|reflexivity]|exact Ne]).
    destruct (C34_found_complete OG H K s' fuel' true cid [] (Some x) c HC Re' Ec id Fh) as (_ & Rv). destruct (Rv bid t Hk) as (R1 & w & an & b1 & Hh & An).
    split; [exact R1|]. exists bid. apply (C34_found_terminals OG H K s' fuel' true cid [] (Some x) c HC Re' Ec). split; [reflexivity|].
    exists {| oo_op := id; oo_ty := ty; oo_no := N.of_nat no |}, t, ty, no, w, an, b1. split; [exact F|]. split; [exact Ne|]. split; [exact Hk|]. split; [|auto].
    exists a. split; [exact As|]. destruct a; cbn in Es; congruence.
Qed.

(** The same for outputs of transactions to which the payment was made openly. *)
Theorem C90_outputs : forall (OG : OrdKey GlobalOut) H K calls f r cid prev outputs transfer fuel c0,
  collision_free H -> no_cycles H -> proves_known K -> paid H K calls f r cid prev ->
  let s := stock_after H K sk_empty calls in
  let s' := stock_after H K sk_empty (calls ++ [SkFascia f r]) in
  consign H K fuel s transfer cid prev None = Some (Ok c0) ->
  (forall o, In o outputs -> exists id t ty no a x out, moved f cid id t /\ assigned t ty no a /\ revealed_seal a = Some x /\
     seal_output (Some (fascia_witness_id f)) x out /\ os_outpoint out = os_outpoint o) ->
  (forall o out oo, In o outputs -> os_outpoint out = os_outpoint o -> ~ states (sk_index s) (FOut cid out oo)) ->
  forall transfer', exists fuel' c, consign H K fuel' s' transfer' cid outputs None = Some (Ok c).
Proof.
  intros OG H K calls f r cid prev outputs transfer fuel c0 HC Nc Pk P s s' Ex Hp Un transfer'.
  pose proof (paid_reachable H K calls f r cid prev P) as Re. pose proof (paid_reachable' H K calls f r cid prev P) as Re'.
  assert (X : exportable H K s cid prev None) by (apply (C63_export OG H K s transfer cid prev None HC Nc Re); eauto).
  apply (C63_export OG H K s' transfer' cid outputs None HC Nc Re'), (paid_outputs H K calls f r cid prev HC Pk P outputs X Hp Un).
Qed.

(** *** Example: the payment of C62, with its anchor, or one which pays the same seal twice *)

Definition hd_assigns (twice : bool) : list Assign :=
  if twice then [ConfidentialSeal cn_secret RVoid; ConfidentialSeal cn_secret RVoid] else [Revealed fx_out RVoid; ConfidentialSeal cn_secret RVoid].
Definition hd_trans (twice : bool) : Operation := cn_op OpTransition 2 [cn_in (cn_id tx_own)] (hd_assigns twice).
Definition hd_bundle (twice : bool) : Bundle := cn_bundle bit_hashes [hd_trans twice].
Definition hd_fascia (twice : bool) : Fascia :=
  {| fa_witness := {| xw_layer := Bitcoin; xw_pub := PwTxid 10 |};
     fa_anchor := ASTapret {| an_root := 1; an_known := [(cn_cid, bundle_id bit_hashes (hd_bundle twice))]; an_dbc := 0 |};
     fa_bundles := [(cn_cid, di_single (hd_bundle twice))] |}.
Definition hd_calls : list StockCall := [SkAccept (cn_cons bit_hashes [] tx_own) yes_witness].
Definition hd_out (txid vout : N) : OutSeal := {| os_layer := Bitcoin; os_method := TapretFirst; os_txid := txid; os_vout := vout |}.

Lemma hd_moved twice cid id t : moved (hd_fascia twice) cid id t -> cid = cn_cid /\ id = op_id bit_hashes (hd_trans twice) /\ t = hd_trans twice.
Proof. intros (b & [X|[]] & Ht). injection X as <- <-. destruct Ht as [Y|[]]. injection Y as <- <-. auto. Qed.

Lemma hd_statuses st w sw (calls : list StockCall) :
  forallb (fun p => match status calls (fst p) with Some _ => true | None => false end) (st_witnesses st) = true ->
  stash_witness st w = Ok sw -> status calls w <> None.
Proof.
  rewrite forallb_forall. intros Ef E. unfold stash_witness in E. destruct (mget w (st_witnesses st)) as [x|] eqn:Em; [|discriminate E].
  apply mget_In in Em. specialize (Ef _ Em). cbn [fst] in Ef. destruct (status calls w); [intros Y; discriminate Y|discriminate Ef].
Qed.

Lemma hd_paid {OG : OrdKey GlobalOut} twice : paid bit_hashes cn_merkle hd_calls (hd_fascia twice) yes_witness cn_cid [hd_out 102 2].
Proof.
  set (s := stock_after bit_hashes cn_merkle sk_empty hd_calls).
  set (B1 := bundle_id bit_hashes (cn_bundle bit_hashes [cn_first bit_hashes])). set (B2 := bundle_id bit_hashes (cn_bundle bit_hashes [cn_last bit_hashes tx_own])).
  assert (Hh : forall w a b, holds (cn_cons bit_hashes [] tx_own) w a b -> dp_method (ea_dbc a) = b_method b /\
    ((w_txid w = 8 /\ bundle_id bit_hashes b = B1) \/ (w_txid w = 9 /\ bundle_id bit_hashes b = B2))).
  { intros w a b (wb & [<-|[<-|[]]] & <- & Cb); inversion Cb; subst; (split; [reflexivity|]); [left|right]; (split; reflexivity). }
  constructor.
  - intros x [<-|[<-|[]]]; (split; [|]).
    + apply cons_okb_ok. vm_compute. reflexivity.
    + split; [constructor|]. intros wb [<-|[<-|[]]]; vm_compute; reflexivity.
    + intros p [<-|[]]. apply bundle_okb_ok. destruct twice; vm_compute; reflexivity.
    + exact Logic.I.
  - intros f' r' [X|[X|[]]]; [discriminate|]. injection X as <- <-. intros a [E|E]; [injection E as <-; repeat constructor|discriminate E].
  - destruct twice; (split; [vm_compute; reflexivity|]; split; [vm_compute; reflexivity|exact Logic.I]).
  - split.
    + intros c r' w a b [X|[X|[]]] Hb; [|discriminate]. injection X as <- <-. apply Hh in Hb. apply Hb.
    + intros f' r' cid b [X|[X|[]]] Hb; [discriminate|]. injection X as <- <-. destruct Hb as [Hb|[]]. injection Hb as <- <-.
      exists {| an_root := 1; an_known := [(cn_cid, bundle_id bit_hashes (hd_bundle twice))]; an_dbc := 0 |}. split; [reflexivity|]. cbn [an_known mget]. rewrite keqb_refl. reflexivity.
  - assert (Bm : forall w m cid bid, brings_message bit_hashes (hd_calls ++ [SkFascia (hd_fascia twice) yes_witness]) w m cid bid ->
      (w_txid w = 8 /\ bid = B1) \/ (w_txid w = 9 /\ bid = B2) \/ (w_txid w = 10 /\ bid = bundle_id bit_hashes (hd_bundle twice))).
    { intros w m cid bid [(c & r' & a & b & [X|[X|[]]] & Hb & _ & _ & ->)|(f' & r' & an & [X|[X|[]]] & <- & Em & Ek)]; try discriminate X.
      - injection X as <- <-. apply Hh in Hb as (_ & [Y|Y]); auto.
      - injection X as <- <-. right. right. split; [reflexivity|]. destruct m; cbn in Em; [discriminate|]. injection Em as <-. cbn [an_known] in Ek.
        apply mget_In in Ek as [Ek|[]]. injection Ek as _ <-. reflexivity. }
    intros w m cid bid bid' M M'. apply Bm in M, M'. destruct M as [(? & ->)|[(? & ->)|(? & ->)]], M' as [(? & ->)|[(? & ->)|(? & ->)]]; try reflexivity; congruence.
  - intros w sw E. fold s in E.
    assert (Ef : forallb (fun p => match status hd_calls (fst p) with Some _ => true | None => false end) (st_witnesses (sk_stash s)) = true) by (vm_compute; reflexivity).
    exact (hd_statuses _ _ _ _ Ef E).
  - intros bid b E. assert (Eb : exists k k', st_bundles (sk_stash (stock_after bit_hashes cn_merkle sk_empty hd_calls)) =
      [(k, cn_bundle bit_hashes [cn_first bit_hashes]); (k', cn_bundle bit_hashes [cn_last bit_hashes tx_own])] \/
      st_bundles (sk_stash (stock_after bit_hashes cn_merkle sk_empty hd_calls)) =
      [(k, cn_bundle bit_hashes [cn_last bit_hashes tx_own]); (k', cn_bundle bit_hashes [cn_first bit_hashes])]).
    { eexists. eexists. first [left; vm_compute; reflexivity|right; vm_compute; reflexivity]. }
    destruct Eb as (k & k' & [Eb|Eb]); rewrite Eb in E; apply mget_In in E as [E|[E|[]]]; injection E as _ <-;
      intros i t [Ht|[]]; injection Ht as <- _; eexists; left; reflexivity.
  - exists Tentative. split; [reflexivity|discriminate].
  - split; [|repeat constructor; intros []]. intros cid b [X|[]]. injection X as _ <-. destruct twice; vm_compute; reflexivity.
  - exists (op_id bit_hashes (hd_trans twice)), (hd_trans twice), (hd_bundle twice). split; [left; reflexivity|left; reflexivity].
  - intros id t i M Hi. apply hd_moved in M as (_ & _ & ->). destruct Hi as [<-|[]]. left. left. exists (hd_out 102 2), (hd_out 102 2).
    split; [left; reflexivity|]. split; [reflexivity|]. fold s.
    assert (F : states (sk_index s) (FOut cn_cid (hd_out 102 2) (cn_in (cn_id tx_own)))).
    { cbn [states]. eexists. eexists. split; [vm_compute; reflexivity|]. split; [vm_compute; reflexivity|]. left. vm_compute. reflexivity. }
    split; [exact F|]. right. intros out' oo' (ci & set & Ec & Es & _) Eo.
    assert (Ef : match mget cn_cid (mi_contracts (sk_index s)) with
      | Some ci => forallb (fun p => negb (os_txid (fst p) =? 102) || keqb (fst p) (hd_out 102 2)) (ci_outs ci) | None => false end = true) by (vm_compute; reflexivity).
    rewrite Ec, forallb_forall in Ef. apply mget_In in Es. specialize (Ef _ Es). cbn [fst] in Ef.
    assert (Et : os_txid out' = 102) by (apply (f_equal xo_txid) in Eo; exact Eo). rewrite Et in Ef. cbn in Ef. apply keqb_true in Ef. exact Ef.
  - intros id bid Hf F. fold s in F.
    assert (Ef : forallb (fun p => match mget (snd p) (mi_bundle_contract (sk_index s)) with Some c => c =? cn_cid | None => false end) (mi_op_bundle (sk_index s)) = true) by (vm_compute; reflexivity).
    rewrite forallb_forall in Ef. cbn [states] in F |- *. apply mget_In in F. specialize (Ef _ F). cbn [snd] in Ef.
    fold s. destruct (mget bid (mi_bundle_contract (sk_index s))) as [c|]; [|discriminate]. apply N.eqb_eq in Ef. rewrite Ef. reflexivity.
Qed.

Lemma hd_before {OG : OrdKey GlobalOut} : exists c0, consign bit_hashes cn_merkle 10 (stock_after bit_hashes cn_merkle sk_empty hd_calls) true cn_cid [hd_out 102 2] None = Some (Ok c0) /\ len (c_bundles c0) = 2.
Proof. eexists. split; vm_compute; reflexivity. Qed.
Lemma hd_unseen {OG : OrdKey GlobalOut} oo : ~ states (sk_index (stock_after bit_hashes cn_merkle sk_empty hd_calls)) (FTerm cn_secret oo).
Proof. intros (set & E & _). assert (En : mget cn_secret (mi_terminals (sk_index (stock_after bit_hashes cn_merkle sk_empty hd_calls))) = None) by (vm_compute; reflexivity). congruence. Qed.
Lemma hd_moves twice : moved (hd_fascia twice) cn_cid (op_id bit_hashes (hd_trans twice)) (hd_trans twice).
Proof. exists (hd_bundle twice). split; left; reflexivity. Qed.

(** The hypotheses of [C90_secret] are met; what is handed over has a bundle more than what was
    exported before. *)
Example C90_secret_nonvacuous : forall OG : OrdKey GlobalOut,
  let s := stock_after bit_hashes cn_merkle sk_empty hd_calls in
  let id := op_id bit_hashes (hd_trans false) in
  collision_free bit_hashes /\ no_cycles bit_hashes /\ proves_known cn_merkle /\
  paid bit_hashes cn_merkle hd_calls (hd_fascia false) yes_witness cn_cid [hd_out 102 2] /\
  (exists c0, consign bit_hashes cn_merkle 10 s true cn_cid [hd_out 102 2] None = Some (Ok c0) /\ len (c_bundles c0) = 2) /\
  moved (hd_fascia false) cn_cid id (hd_trans false) /\ id <> cn_cid /\ assigned (hd_trans false) 4 1 (ConfidentialSeal cn_secret RVoid) /\
  pays_once bit_hashes (hd_fascia false) cn_secret cn_cid /\ (forall oo, ~ states (sk_index s) (FTerm cn_secret oo)) /\
  exists c, consign bit_hashes cn_merkle 10 (stock_after bit_hashes cn_merkle sk_empty (hd_calls ++ [SkFascia (hd_fascia false) yes_witness]))
    true cn_cid [] (Some cn_secret) = Some (Ok c) /\ len (c_bundles c) = 3.
Proof.
  intros OG s id. split; [exact bit_collision_free|]. split; [exact bit_no_cycles|]. split; [exact cn_proves|]. split; [exact (hd_paid false)|].
  split; [exact hd_before|]. split; [exact (hd_moves false)|]. split; [apply N.eqb_neq; vm_compute; reflexivity|].
  split. { eexists. split; [left; reflexivity|reflexivity]. }
  split.
  { split; [|split; [|vm_compute; discriminate]].
    - intros c id' t ty no M _. apply hd_moved in M as (-> & _). reflexivity.
    - assert (U : forall ty no, assigned_to bit_hashes (hd_trans false) ty no cn_secret -> ty = 4 /\ no = 1%nat).
      { intros ty no (a & (ta & Hta & Hn) & Ha). destruct Hta as [X|[]]. injection X as <- <-.
        split; [reflexivity|]. cbn [ta_list hd_assigns] in Hn. destruct no as [|[|no]]; cbn in Hn.
        - injection Hn as <-. exfalso. assert (En : (cn_secret =? h_seal bit_hashes fx_out) = false) by (vm_compute; reflexivity). apply N.eqb_neq in En. exact (En Ha).
        - reflexivity.
        - destruct no; discriminate Hn. }
      intros b id1 t1 ty1 no1 id2 t2 ty2 no2 Hb H1 H2 A1 A2.
      destruct (hd_moved false cn_cid id1 t1) as (_ & -> & ->); [exists b; auto|]. destruct (hd_moved false cn_cid id2 t2) as (_ & -> & ->); [exists b; auto|].
      destruct (U _ _ A1) as [-> ->]. destruct (U _ _ A2) as [-> ->]. auto. }
  split; [exact hd_unseen|]. eexists. split; vm_compute; reflexivity.
Qed.

(** The change of the same payment *)
Example C90_outputs_nonvacuous : forall OG : OrdKey GlobalOut,
  let s := stock_after bit_hashes cn_merkle sk_empty hd_calls in
  let f := hd_fascia false in
  (forall o, In o [hd_out 10 1] -> exists id t ty no a x out, moved f cn_cid id t /\ assigned t ty no a /\ revealed_seal a = Some x /\
     seal_output (Some (fascia_witness_id f)) x out /\ os_outpoint out = os_outpoint o) /\
  (forall o out oo, In o [hd_out 10 1] -> os_outpoint out = os_outpoint o -> ~ states (sk_index s) (FOut cn_cid out oo)) /\
  exists c, consign bit_hashes cn_merkle 10 (stock_after bit_hashes cn_merkle sk_empty (hd_calls ++ [SkFascia f yes_witness]))
    false cn_cid [hd_out 10 1] None = Some (Ok c) /\ len (c_bundles c) = 3.
Proof.
  intros OG s f. split; [|split].
  - intros o [<-|[]]. exists (op_id bit_hashes (hd_trans false)), (hd_trans false), 4, 0%nat, (Revealed fx_out RVoid), fx_out, (hd_out 10 1).
    split; [exact (hd_moves false)|]. split; [eexists; split; [left; reflexivity|reflexivity]|]. split; [reflexivity|]. split; [|reflexivity].
    unfold seal_output. cbn. auto.
  - intros o out oo [<-|[]] Eo (ci & set & Ec & Es & _).
    assert (Ef : match mget cn_cid (mi_contracts (sk_index s)) with
      | Some ci => forallb (fun p => negb (os_txid (fst p) =? 10)) (ci_outs ci) | None => false end = true) by (vm_compute; reflexivity).
    rewrite Ec, forallb_forall in Ef. apply mget_In in Es. specialize (Ef _ Es). cbn [fst] in Ef.
    assert (Et : os_txid out = 10) by (apply (f_equal xo_txid) in Eo; exact Eo). rewrite Et in Ef. discriminate Ef.
  - eexists. split; vm_compute; reflexivity.
Qed.

(** A payment with two outputs to one secret seal is recorded, but can not be handed over. *)
Theorem C90_twice_refuted : forall OG : OrdKey GlobalOut, ~ forall H K calls f r cid prev transfer fuel c0 x id t ty no a,
  collision_free H -> no_cycles H -> proves_known K -> paid H K calls f r cid prev ->
  let s := stock_after H K sk_empty calls in
  let s' := stock_after H K sk_empty (calls ++ [SkFascia f r]) in
  consign H K fuel s transfer cid prev None = Some (Ok c0) ->
  moved f cid id t -> id <> cid -> assigned t ty no a -> secret_of a = Some x ->
  (forall oo, ~ states (sk_index s) (FTerm x oo)) ->
  exists fuel' c, consign H K fuel' s' true cid [] (Some x) = Some (Ok c).
Proof.
  intros OG All. destruct hd_before as (c0 & E0 & _).
  assert (As : forall no, (no < 2)%nat -> assigned (hd_trans true) 4 no (ConfidentialSeal cn_secret RVoid)).
  { intros no Hn. eexists. split; [left; reflexivity|]. destruct no as [|[|no]]; [reflexivity|reflexivity|lia]. }
  specialize (All bit_hashes cn_merkle hd_calls (hd_fascia true) yes_witness cn_cid [hd_out 102 2] true 10%nat c0 cn_secret
    (op_id bit_hashes (hd_trans true)) (hd_trans true) 4 0%nat (ConfidentialSeal cn_secret RVoid)
    bit_collision_free bit_no_cycles cn_proves (hd_paid true) E0 (hd_moves true) ltac:(apply N.eqb_neq; vm_compute; reflexivity) (As 0%nat ltac:(lia)) eq_refl hd_unseen).
  cbv zeta in All.
  apply (C63_export OG _ _ _ _ _ _ _ bit_collision_free bit_no_cycles (paid_reachable' _ _ _ _ _ _ _ (hd_paid true))) in All.
  pose proof (xp_terminal _ _ _ _ _ _ All cn_secret eq_refl) as T.
  destruct (paid_moved bit_hashes cn_merkle hd_calls (hd_fascia true) yes_witness cn_cid [hd_out 102 2] bit_collision_free (hd_paid true) _ _ (hd_moves true)) as (bid & b & Hk & _).
  set (oo no := {| oo_op := op_id bit_hashes (hd_trans true); oo_ty := 4; oo_no := N.of_nat no |}).
  assert (F : forall no, (no < 2)%nat -> found (stock_after bit_hashes cn_merkle sk_empty (hd_calls ++ [SkFascia (hd_fascia true) yes_witness])) cn_cid [] (Some cn_secret) (oo no)).
  { intros no Hn. right. exists cn_secret. split; [reflexivity|].
    apply (paid_index bit_hashes cn_merkle hd_calls (hd_fascia true) yes_witness cn_cid [hd_out 102 2] bit_collision_free (hd_paid true)).
    right. exists cn_cid, (hd_bundle true). split; [left; reflexivity|]. right. right. eexists. eexists. split; [left; reflexivity|]. right.
    exists 4, no, (ConfidentialSeal cn_secret RVoid). split; [exact (As no Hn)|]. right. exists cn_secret. split; reflexivity. }
  assert (At : forall no, (no < 2)%nat -> assigned_to bit_hashes (hd_trans true) 4 no cn_secret).
  { intros no Hn. exists (ConfidentialSeal cn_secret RVoid). split; [exact (As no Hn)|reflexivity]. }
  assert (Ne : op_id bit_hashes (hd_trans true) <> cn_cid) by (apply N.eqb_neq; vm_compute; reflexivity).
  destruct (T bid (oo 0%nat) (hd_trans true) 4 0%nat (oo 1%nat) (hd_trans true) 4 1%nat (F 0%nat ltac:(lia)) Ne Hk (At 0%nat ltac:(lia)) (F 1%nat ltac:(lia)) Ne Hk (At 1%nat ltac:(lia))) as (X & _).
  apply (f_equal oo_no) in X. discriminate X.
Qed.

Print Assumptions C90_secret.
Print Assumptions C90_outputs.
Print Assumptions C90_secret_nonvacuous.
Print Assumptions C90_outputs_nonvacuous.
Print Assumptions C90_twice_refuted.
