(** * What a payment of data loses: property theorem C68 *)
From Coq Require Import Ascii String Lia.
From Verif Require Import Base Str StM Core Ser MergeModel MergeSpec MergeProofs ContainerModel ContainerSpec ContainerProofs.
From Verif Require Import PIndexModel PIndexSpec PIndexProofs StateModel StateSpec StateProofs StashModel StashSpec StashProofs StashAgain StashProps.
From Verif Require Import StockModel StockProofs StockAgain ConsignModel ConsignSpec ConsignProofs ConsignAccept ConsignProps FasciaProps StockProps StateProps.
From Verif Require Import TransferProofs TransferSpec TransferProps ExportProps.
From Verif Require Import InvoiceModel SupplModel IfaceModel BuilderModel BuilderSpec BuilderProofs BuilderComplete BuilderProps ComposeModel ComposeSpec ComposeProofs ComposeMain ComposePaid
  ComposeBlank ComposeErr ComposeProps FoundProps PaySpec PayProofs PayProps PayDataProps.
Local Open Scope list_scope.
Local Open Scope N_scope.

(** A contract whose second output holds two allocations of one type *)
Definition pl_gen : Operation := fd_gen 8
  [(10, {| ta_kind := KFungible; ta_list := [Revealed (fd_seal TapretFirst 1) (RAmount 30 11 77); Revealed (fd_seal OpretFirst 2) (RAmount 25 12 77)] |});
   (12, {| ta_kind := KStructured; ta_list := [Revealed (fd_seal OpretFirst 2) (RData 7 4); Revealed (fd_seal OpretFirst 2) (RData 6 4)] |})].
Definition pl_id : N := op_id bit_hashes pl_gen.
Definition pl_calls : list StockCall := [SkAccept (fd_cons pl_gen) yes_witness; SkAccept (fd_cons fd_two) yes_witness].
Definition pl_payer {OG : OrdKey GlobalOut} : Stock := stock_after bit_hashes cn_merkle sk_empty pl_calls.
Definition pl_invoice : RgbInvoice :=
  {| transports := []; InvoiceModel.contract := Some pl_id; InvoiceModel.iface := Some (lit "A"%string); InvoiceModel.operation := None;
     InvoiceModel.assignment := Some (lit "assetOwner12"%string); beneficiary := XBitcoinMainnet (BlindedSeal cn_secret); owned_state := ISData pd_alloc; expiry := None; unknown_query := [] |}.
Definition pl_anchor : Anchor := {| an_root := 1; an_known := mfrom [(pl_id, 5); (fd_second, 6)]; an_dbc := 0 |}.
Definition pl_fascia (b : Batch) : Fascia :=
  {| fa_witness := {| xw_layer := Bitcoin; xw_pub := PwTxid 10 |}; fa_anchor := ASDouble pl_anchor pl_anchor;
     fa_bundles := mfrom ((pl_id, py_bundles (ba_main b)) :: map (fun d => (fd_second, py_bundles d)) (ba_blanks b)) |}.
Definition pl_lost : Inp := (cx_seal OpretFirst 2, ({| oo_op := pl_id; oo_ty := 12; oo_no := 1 |}, RData 6 4)).
Definition pl_l : list Inp :=
  [(cx_seal TapretFirst 1, ({| oo_op := pl_id; oo_ty := 10; oo_no := 0 |}, RAmount 30 11 77));
   (cx_seal OpretFirst 2, ({| oo_op := pl_id; oo_ty := 10; oo_no := 1 |}, RAmount 25 12 77));
   (cx_seal OpretFirst 2, ({| oo_op := pl_id; oo_ty := 12; oo_no := 0 |}, RData 7 4));
   pl_lost].
Lemma pl_reachable {OG : OrdKey GlobalOut} : reachable bit_hashes cn_merkle pl_payer.
Proof. exists pl_calls. split; [|reflexivity]. intros x [<-|[<-|[]]]; apply cons_okb_ok; vm_compute; reflexivity. Qed.
Lemma pl_paying {OG : OrdKey GlobalOut} : paying_data cx_defs false pl_payer cx_apart cx_orders pl_invoice cx_prev pl_id 20 12 pd_alloc pl_l.
Proof.
  split; [exact cx_orders_ok|]. split; [exact cx_small|]. split; [reflexivity|]. split.
  { eexists (lit "A"%string), pl_gen, _, _, _, bx. split; [reflexivity|]. split; [reflexivity|]. split; [vm_compute; reflexivity|]. split; [vm_compute; reflexivity|].
    split; [vm_compute; reflexivity|]. split; [vm_compute; reflexivity|]. repeat (split; [reflexivity|]). split; [exists 20; split; reflexivity|].
    exists 12. split; reflexivity. }
  split. { eapply spent_of; [vm_compute; reflexivity|vm_compute; reflexivity|]. repeat constructor; cbn; intuition discriminate. }
  split; [left; reflexivity|].
  intros x y Hx Hy _ _ Ea _. vm_compute in Hx, Hy. repeat destruct Hx as [<-|Hx]; try destruct Hx; repeat destruct Hy as [<-|Hy]; try destruct Hy; try reflexivity; vm_compute in Ea; discriminate.
Qed.
Lemma pl_commits b cid d : mget cid (fa_bundles (pl_fascia b)) = Some (py_bundles d) -> commits_to bit_hashes (pl_fascia b) cid (di_iter d).
Proof.
  intros E i Hi. exists (py_bundle i). split; [|left; reflexivity]. unfold fascia_bundles. apply in_flat_map. exists (cid, py_bundles d). split; [apply mget_In, E|].
  cbn [fst snd]. apply (in_map (fun b => (cid, b))). destruct d as [x [y|]]; cbn in *; intuition (subst; auto).
Qed.

(** The allocations of data of a contract in a stock which are not at the given outputs *)
Definition pl_elsewhere {OG : OrdKey GlobalOut} (s : Stock) (cid : N) (prev : list OutSeal) (v : N) : bool :=
  match contract_state (sk_state s) cid with
  | Ok c => existsb (fun k => existsb (fun o => match oa_state o with
        | RData d _ => (d =? v) && negb (existsb (keqb (os_outpoint (oa_seal o))) (map os_outpoint prev))
        | _ => false end) (outs_all k c)) [KDeclarative; KFungible; KStructured; KAttachment]
  | _ => false
  end.
Lemma pl_nowhere {OG : OrdKey GlobalOut} s cid prev v : pl_elsewhere s cid prev v = false ->
  forall y salt, owns s cid y -> in_state y = RData v salt -> In (os_outpoint (in_seal y)) (map os_outpoint prev).
Proof.
  unfold pl_elsewhere. intros E y salt (c & k & w & Ec & Hin) Es. rewrite Ec in E.
  destruct (existsb (keqb (os_outpoint (in_seal y))) (map os_outpoint prev)) eqn:Eo.
  - apply existsb_exists in Eo as (x & Hx & Ex). apply keqb_true in Ex. rewrite Ex. exact Hx.
  - exfalso. assert (T : true = false); [|discriminate T]. rewrite <- E. symmetry. apply existsb_exists. exists k.
    split; [destruct k; cbn; tauto|]. apply existsb_exists. eexists. split; [exact Hin|]. cbn. rewrite Es, N.eqb_refl, Eo. reflexivity.
Qed.

(** C68, refuted for data: the payer's other allocations of the type which is paid are not given
    back.  All conditions of [C68_data_blinded_partial] hold, the allocation is spent, and neither
    the payer nor the payee has it at any other output. *)
Theorem C68_rest_refuted : ~ forall (OG : OrdKey GlobalOut) H K D P wrap sA ch od inv prev method vout priority now batch cid tt a al l f rA sA' fuel transfer c sB r sB' x0 x,
  collision_free H ->
  paying_data D wrap sA ch od inv prev cid tt a al l ->
  compose H D P wrap sA ch od inv prev method vout priority now = Ok batch ->
  xcn_into_inner (beneficiary inv) = BlindedSeal x0 -> df_secret D (layer1 (chain_network (beneficiary inv))) x0 = h_seal H x ->
  let ts := di_iter (ba_main batch) in
  published H K f rA sA sA' cid ts -> fresh H f sA cid ts ->
  consign H K fuel sA' transfer cid [] (Some (h_seal H x)) = Some (Ok c) ->
  reachable H K sB -> seal_secret H (sk_stash sB) (h_seal H x) = Some x ->
  accept_body H K c r sB = (sB', Ok Datatypes.tt) ->
  forall y v salt, In y l -> in_state y = RData v salt ->
  exists s y' salt', (s = sA' \/ s = sB') /\ owns s cid y' /\ in_state y' = RData v salt' /\ ~ In (os_outpoint (in_seal y')) (map os_outpoint prev).
Proof.
  intros F. assert (OG : OrdKey GlobalOut) by exact OrdGlobalOut.
  destruct (compose bit_hashes cx_defs bx_pedersen false pl_payer cx_apart cx_orders pl_invoice cx_prev TapretFirst None 7 50%Z) as [batch| |] eqn:E;
    [|exfalso; vm_compute in E; discriminate E|exfalso; vm_compute in E; discriminate E].
  pose proof E as E0. vm_compute in E. injection E as E.
  assert (E1 : match fascia_body bit_hashes (pl_fascia batch) yes_witness pl_payer with
       | (s1, Ok _) => match consign bit_hashes cn_merkle 10 s1 true pl_id [] (Some (h_seal bit_hashes ex_secret)) with
                 | Some (Ok c) => match accept_body bit_hashes cn_merkle c yes_witness tx_payee with
                     | (s2, Ok _) => negb (pl_elsewhere s1 pl_id cx_prev 6) && negb (pl_elsewhere s2 pl_id cx_prev 6)
                     | _ => false end
                 | _ => false end
       | _ => false end = true) by (subst batch; vm_compute; reflexivity).
  destruct (fascia_body bit_hashes (pl_fascia batch) yes_witness pl_payer) as [sA' [[]|e|]] eqn:Ef; try discriminate E1.
  destruct (consign bit_hashes cn_merkle 10 sA' true pl_id [] (Some (h_seal bit_hashes ex_secret))) as [[c|e|]|] eqn:Ec; try discriminate E1.
  destruct (accept_body bit_hashes cn_merkle c yes_witness tx_payee) as [sB' [[]|e|]] eqn:Ea; try discriminate E1.
  apply andb_prop in E1 as [N1 N2]. apply negb_true_iff in N1, N2.
  assert (Okf : stock_call_ok bit_hashes (SkFascia (pl_fascia batch) yes_witness)).
  { assert (Hb : forallb (fun p => bundle_okb bit_hashes (snd p)) (fascia_bundles (pl_fascia batch)) = true) by (subst batch; vm_compute; reflexivity).
    rewrite forallb_forall in Hb. intros p Hp. apply bundle_okb_ok, Hb, Hp. }
  assert (Nd : NoDup (map (fun p => bundle_id bit_hashes (snd p)) (fascia_bundles (pl_fascia batch)))) by (apply nodupb_ok; subst batch; vm_compute; reflexivity).
  assert (Em : mget pl_id (fa_bundles (pl_fascia batch)) = Some (py_bundles (ba_main batch))) by (subst batch; vm_compute; reflexivity).
  assert (Pb : published bit_hashes cn_merkle (pl_fascia batch) yes_witness pl_payer sA' pl_id (di_iter (ba_main batch))).
  { split; [exact pl_reachable|]. split; [exact Okf|]. split; [exact Ef|]. split; [exact Nd|]. apply pl_commits, Em. }
  assert (Fr : fresh bit_hashes (pl_fascia batch) pl_payer pl_id (di_iter (ba_main batch))).
  { split.
    - assert (Hn : forallb (fun p => negb (mhas (bundle_id bit_hashes (snd p)) (st_bundles (sk_stash pl_payer))) && negb (mhas (bundle_id bit_hashes (snd p)) (mi_bundle_witness (sk_index pl_payer)))) (fascia_bundles (pl_fascia batch)) = true)
        by (subst batch; vm_compute; reflexivity).
      rewrite forallb_forall in Hn. intros b Hb. specialize (Hn _ Hb). cbn [snd] in Hn. apply andb_prop in Hn as [M1 M2]. apply not_there in M1, M2. split; [exact M1|].
      intros w (ws & Ew & _). exact (eq_ind None (fun o => match o with None => True | _ => False end) Logic.I _ (eq_trans (eq_sym M2) Ew)).
    - assert (Hn : forallb (fun i => negb (op_id bit_hashes (ti_transition i) =? pl_id)) (di_iter (ba_main batch)) = true) by (subst batch; vm_compute; reflexivity).
      rewrite forallb_forall in Hn. intros i Hi Ei. specialize (Hn i Hi). rewrite Ei, N.eqb_refl in Hn. discriminate. }
  assert (Sx : seal_secret bit_hashes (sk_stash tx_payee) (h_seal bit_hashes ex_secret) = Some ex_secret) by (vm_compute; reflexivity).
  destruct (F OG bit_hashes cn_merkle cx_defs bx_pedersen false pl_payer cx_apart cx_orders pl_invoice cx_prev TapretFirst None 7 50%Z batch pl_id 20 12 pd_alloc pl_l
    (pl_fascia batch) yes_witness sA' 10%nat true c tx_payee yes_witness sB' cn_secret ex_secret bit_collision_free pl_paying E0 eq_refl eq_refl Pb Fr Ec tx_payee_reachable Sx Ea
    pl_lost 6 4 ltac:(cbn; auto) eq_refl) as (s & y & salt & [ -> | -> ] & Ho & Es & Hn).
  - apply Hn. exact (pl_nowhere _ _ _ _ N1 y salt Ho Es).
  - apply Hn. exact (pl_nowhere _ _ _ _ N2 y salt Ho Es).
Qed.
Print Assumptions C68_rest_refuted.
