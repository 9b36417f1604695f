(** * C90: from an invoice to a consignment

    A payment composed for an invoice which asks for a blinded seal, put into a transaction and
    recorded, can be handed over: nothing is asked about what it spends or moves. *)
From Verif Require Import Base Str StM Core Ser MergeSpec ContainerModel ContainerSpec PIndexModel PIndexSpec PIndexProofs StateModel StateSpec StateProps.
From Verif Require Import StashModel StashSpec StashAgain StashProps StockModel StockAgain StockProofs StockProps ConsignModel ConsignSpec ConsignProofs ConsignProps TransferProps.
From Verif Require Import InvoiceModel BuilderModel BuilderSpec BuilderProps ComposeModel ComposeSpec ComposeProps FoundProps PaySpec PayProps OwnProps.
From Verif Require Import StateProofs PIndexSpec ConsignSpec LedgerSpec ReplicaSpec GrowSpec GrowProofs FasciaProps HandSpec HandMain HandProps HandPayProps.
Local Open Scope N_scope.

Section Settled.
Context {OG : OrdKey GlobalOut} (H : Hashes) (K : Merkle) (calls : list StockCall) (f : Fascia) (r : Resolver) (cid : N) (prev : list OutSeal).
(** The conditions of [paid] about the history and about the transaction only *)
Record settled : Prop := {
  se_calls : forall x, In x (calls ++ [SkFascia f r]) -> ledger_call_ok H x;
  se_anchors : forall f' r', In (SkFascia f' r') (calls ++ [SkFascia f r]) -> anchor_wf (fa_anchor f');
  se_succeed : all_calls_succeed H K sk_empty (calls ++ [SkFascia f r]);
  se_anchored : well_anchored H (calls ++ [SkFascia f r]);
  se_message : one_message H (calls ++ [SkFascia f r]);
  se_status : forall w sw, stash_witness (sk_stash (stock_after H K sk_empty calls)) w = Ok sw -> status calls w <> None;
  se_named : stock_named (stock_after H K sk_empty calls);
  se_live : exists o, r (fascia_witness_id f) = Some o /\ o <> Archived;
  se_new : new_bundles H (stock_after H K sk_empty calls) f;
  se_history : in_contract (stock_after H K sk_empty calls) cid prev None
}.
End Settled.

Lemma calls_both {OG : OrdKey GlobalOut} H K calls more : forall s, all_calls_succeed H K s (calls ++ more) -> stock_all_succeed H K s calls.
Proof. induction calls as [|x calls IH]; intros s Su; [exact Logic.I|]. cbn in Su |- *. destruct Su as [E Su]. split; [exact E|apply IH, Su]. Qed.

Theorem C90_invoice_to_consignment : forall (OG : OrdKey GlobalOut) H K calls D P wrap ch od inv prev method vout priority now batch cid tt a amt l f r transfer fuel c0 x id t ty no y,
  collision_free H -> no_cycles H -> proves_known K ->
  let s := stock_after H K sk_empty calls in
  let s' := stock_after H K sk_empty (calls ++ [SkFascia f r]) in
  paying D wrap s ch od inv prev method vout cid tt a amt l ->
  compose H D P wrap s ch od inv prev method vout priority now = Ok batch ->
  made_of H batch f -> commits_to H f cid (di_iter (ba_main batch)) -> one_seal_each s cid prev ->
  settled H K calls f r cid prev ->
  consign H K fuel s transfer cid prev None = Some (Ok c0) ->
  moved f cid id t -> id <> cid -> assigned t ty no y -> secret_of y = Some x -> pays_once H f x cid ->
  (forall oo, ~ states (sk_index s) (FTerm x oo)) ->
  (exists fuel' c, consign H K fuel' s' true cid [] (Some x) = Some (Ok c)) /\
  forall fuel' c, consign H K fuel' s' true cid [] (Some x) = Some (Ok c) ->
    reveals_op c id t /\ exists bid, mget bid (c_terminals c) = Some x.
Proof.
  intros OG H K calls D P wrap ch od inv prev method vout priority now batch cid tt a amt l f r transfer fuel c0 x id t ty no y HC Nc Pk s s' Pa E M Co Os S Ex Mv Ne As Es Po Un.
  assert (Ok' : forall x, In x calls -> stock_call_ok H x) by (intros z Hz; apply (se_calls _ _ _ _ _ _ _ S); apply in_or_app; auto).
  pose proof (calls_both H K calls _ sk_empty (se_succeed _ _ _ _ _ _ _ S)) as Su.
  destruct (C90_composed OG H K calls D P wrap ch od inv prev method vout priority now batch cid tt a amt l f Ok' Su Pa E M Co Os) as (Hm & Hs).
  assert (Q : paid H K calls f r cid prev) by (destruct S; constructor; assumption).
  exact (C90_secret OG H K calls f r cid prev transfer fuel c0 x id t ty no y HC Nc Pk Q Ex Mv Ne As Es Po Un).
Qed.

(** *** Example: the payment of C68, with anchors for its four bundles *)
Definition he_anchor (m : CloseMethod) (b : Batch) : Anchor :=
  {| an_root := 1; an_dbc := 0;
     an_known := mfrom (map (fun i => (op_contract (ti_transition i), bundle_id bit_hashes (py_bundle i))) (filter (fun i => keqb (ti_method i) m) (batch_iter b))) |}.
Definition he_fascia (b : Batch) : Fascia :=
  {| fa_witness := fa_witness (py_fascia b); fa_anchor := ASDouble (he_anchor TapretFirst b) (he_anchor OpretFirst b); fa_bundles := fa_bundles (py_fascia b) |}.
Definition he_check {OG : OrdKey GlobalOut} (s : Stock) (f : Fascia) : bool :=
  forallb (fun p => bundle_okb bit_hashes (snd p)) (fascia_bundles f) &&
  match snd (fascia_body bit_hashes f yes_witness s) with Ok _ => true | _ => false end &&
  forallb (fun p => match match b_method (snd p) with TapretFirst => tapret_of (fa_anchor f) | OpretFirst => opret_of (fa_anchor f) end with
    | Some an => keqb (mget (fst p) (an_known an)) (Some (bundle_id bit_hashes (snd p))) | None => false end) (fascia_bundles f).
Definition he_blank (x : StockCall) : Prop :=
  match x with SkAccept c _ => c_bundles c = [] /\ c_terminals c = [] /\ stock_call_ok bit_hashes x | _ => False end.

Lemma he_succeed {OG : OrdKey GlobalOut} H K f r calls : forall s, all_calls_succeed H K s calls ->
  snd (fascia_body H f r (stock_after H K s calls)) = Ok tt -> all_calls_succeed H K s (calls ++ [SkFascia f r]).
Proof.
  induction calls as [|x calls IH]; intros s Su E; [split; [exact E|exact Logic.I]|]. cbn [app all_calls_succeed] in *. destruct Su as [E1 Su].
  split; [exact E1|]. apply IH; [exact Su|exact E].
Qed.

Lemma he_ok {X} (x : result X unit) : match x with Ok _ => true | _ => false end = true -> x = Ok tt.
Proof. destruct x as [[]| |]; intros E; [reflexivity|discriminate E|discriminate E]. Qed.

Lemma he_fresh (s : Stock) : st_bundles (sk_stash s) = [] /\ st_witnesses (sk_stash s) = [] /\ mi_op_bundle (sk_index s) = [] ->
  (forall w sw, stash_witness (sk_stash s) w = Ok sw -> False) /\ stock_named s /\
  (forall H f, NoDup (map (fun p => bundle_id H (snd p)) (fascia_bundles f)) -> new_bundles H s f) /\ forall cid prev, in_contract s cid prev None.
Proof.
  intros (Eb & Ew & Eo). split; [|split; [|split]].
  - intros w sw E. unfold stash_witness in E. rewrite Ew in E. discriminate E.
  - intros bid b' E. rewrite Eb in E. discriminate E.
  - intros H f Nd. split; [|exact Nd]. intros cid b' _. rewrite Eb. reflexivity.
  - intros cid prev id bid _ F. cbn [states] in F. rewrite Eo in F. discriminate F.
Qed.
Lemma he_sorted T O : msorted (an_known T) -> msorted (an_known O) -> anchor_wf (ASDouble T O).
Proof. intros HT HO a [E|E]; injection E as <-; assumption. Qed.

Lemma he_settled {OG : OrdKey GlobalOut} s calls f cid prev :
  s = stock_after bit_hashes cn_merkle sk_empty calls ->
  (forall x, In x calls -> he_blank x) -> all_calls_succeed bit_hashes cn_merkle sk_empty calls ->
  st_bundles (sk_stash s) = [] /\ st_witnesses (sk_stash s) = [] /\ mi_op_bundle (sk_index s) = [] ->
  he_check s f = true -> anchor_wf (fa_anchor f) -> NoDup (map (fun p => bundle_id bit_hashes (snd p)) (fascia_bundles f)) ->
  settled bit_hashes cn_merkle calls f yes_witness cid prev.
Proof.
  intros -> Bl Su E0 Ck Wf Nd. unfold he_check in Ck. apply andb_prop in Ck as [Ck C3]. apply andb_prop in Ck as [C1 C2].
  rewrite forallb_forall in C1, C3. apply he_fresh in E0. destruct E0 as (F1 & F2 & F3 & F4).
  assert (Hh : forall c r' w a b', In (SkAccept c r') (calls ++ [SkFascia f yes_witness]) -> holds c w a b' -> False).
  { intros c r' w a b' Hi (wb & Hb & _). apply in_app_or in Hi as [Hi|[X|[]]]; [|discriminate X]. apply Bl in Hi as (Ec & _). rewrite Ec in Hb. destruct Hb. }
  assert (Hf : forall f' r', In (SkFascia f' r') (calls ++ [SkFascia f yes_witness]) -> f' = f).
  { intros f' r' Hi. apply in_app_or in Hi as [Hi|[X|[]]]; [destruct (Bl _ Hi)|]. injection X as <- <-. reflexivity. }
  constructor.
  - intros x Hx. apply in_app_or in Hx as [Hx|[<-|[]]].
    + apply Bl in Hx. destruct x as [c r'|f' r'|k|z|r' n|]; try (destruct Hx; fail). destruct Hx as (Eb & Et & Ok'). split; [exact Ok'|]. rewrite Et. split; [constructor|]. intros wb Hw. rewrite Eb in Hw. destruct Hw.
    + split; [|exact Logic.I]. intros p Hp. apply bundle_okb_ok, C1, Hp.
  - intros f' r' Hi. rewrite (Hf f' r' Hi). exact Wf.
  - apply he_succeed; [exact Su|]. exact (he_ok _ C2).
  - split; [intros c r' w a b' Hi Hb; destruct (Hh c r' w a b' Hi Hb)|].
    intros f' r' c b' Hi Hb. pose proof (Hf f' r' Hi) as ->. specialize (C3 _ Hb). cbn [fst snd] in C3.
    destruct (match b_method b' with TapretFirst => _ | OpretFirst => _ end) as [an|]; [|discriminate C3]. apply keqb_true in C3. exists an. auto.
  - intros w m c bid bid' [(c1 & r' & a & b' & Hi & Hb & _)|(f1 & r1 & an & Hi & _ & Em & Ek)]; [destruct (Hh c1 r' w a b' Hi Hb)|].
    intros [(c1 & r' & a & b' & Hi' & Hb & _)|(f2 & r2 & an' & Hi' & _ & Em' & Ek')]; [destruct (Hh c1 r' w a b' Hi' Hb)|].
    rewrite (Hf _ _ Hi) in Em. rewrite (Hf _ _ Hi') in Em'. rewrite Em in Em'. injection Em' as <-. rewrite Ek in Ek'. injection Ek' as <-. reflexivity.
  - intros w sw E. destruct (F1 w sw E).
  - exact F2.
  - exists Tentative. split; [reflexivity|discriminate].
  - exact (F3 _ _ Nd).
  - exact (F4 _ _).
Qed.
Lemma he_anchors b : anchor_wf (fa_anchor (he_fascia b)).
Proof. apply he_sorted; apply mfrom_sorted. Qed.
Lemma he_bundles b : fascia_bundles (he_fascia b) = fascia_bundles (py_fascia b).
Proof. reflexivity. Qed.
Lemma he_calls x : In x fd_calls -> he_blank x.
Proof. intros [<-|[<-|[]]]; (split; [reflexivity|split; [reflexivity|apply cons_okb_ok; vm_compute; reflexivity]]). Qed.
Lemma he_fresh_payer {OG : OrdKey GlobalOut} : st_bundles (sk_stash py_payer) = [] /\ st_witnesses (sk_stash py_payer) = [] /\ mi_op_bundle (sk_index py_payer) = [].
Proof. split; [|split]; vm_compute; reflexivity. Qed.
Lemma he_succeeded {OG : OrdKey GlobalOut} : all_calls_succeed bit_hashes cn_merkle sk_empty fd_calls.
Proof. split; [vm_compute; reflexivity|split; [vm_compute; reflexivity|exact Logic.I]]. Qed.

Definition he_handed {OG : OrdKey GlobalOut} (b : Batch) : bool :=
  match consign bit_hashes cn_merkle 10 (stock_after bit_hashes cn_merkle sk_empty (fd_calls ++ [SkFascia (he_fascia b) yes_witness])) true fd_first [] (Some cn_secret) with
  | Some (Ok c) => match c_bundles c with [] => false | _ => true end | _ => false end.
Lemma he_some {X} (r : option (result X Consignment)) :
  match r with Some (Ok c) => match c_bundles c with [] => false | _ => true end | _ => false end = true -> exists c, r = Some (Ok c) /\ c_bundles c <> [].
Proof. destruct r as [[c|e|]|]; intros E; try discriminate E. exists c. split; [reflexivity|]. intros Ez. rewrite Ez in E. discriminate E. Qed.
Lemma he_handed_ok {OG : OrdKey GlobalOut} b : he_handed b = true -> exists c,
  consign bit_hashes cn_merkle 10 (stock_after bit_hashes cn_merkle sk_empty (fd_calls ++ [SkFascia (he_fascia b) yes_witness])) true fd_first [] (Some cn_secret) = Some (Ok c) /\ c_bundles c <> [].
Proof. unfold he_handed. apply he_some. Qed.

Example C90_invoice_to_consignment_nonvacuous : forall OG : OrdKey GlobalOut, exists batch id t ty no y,
  let f := he_fascia batch in
  let s := py_payer in
  let s' := stock_after bit_hashes cn_merkle sk_empty (fd_calls ++ [SkFascia f yes_witness]) in
  collision_free bit_hashes /\ no_cycles bit_hashes /\ proves_known cn_merkle /\
  s = stock_after bit_hashes cn_merkle sk_empty fd_calls /\
  paying cx_defs false s cx_apart cx_orders py_invoice cx_prev TapretFirst None fd_first 20 10 40 py_l /\
  compose bit_hashes cx_defs bx_pedersen false s cx_apart cx_orders py_invoice cx_prev TapretFirst None 7 50%Z = Ok batch /\
  made_of bit_hashes batch f /\ commits_to bit_hashes f fd_first (di_iter (ba_main batch)) /\ one_seal_each s fd_first cx_prev /\
  settled bit_hashes cn_merkle fd_calls f yes_witness fd_first cx_prev /\
  (exists c0, consign bit_hashes cn_merkle 10 s true fd_first cx_prev None = Some (Ok c0)) /\
  moved f fd_first id t /\ id <> fd_first /\ assigned t ty no y /\ secret_of y = Some cn_secret /\ pays_once bit_hashes f cn_secret fd_first /\
  (forall oo, ~ states (sk_index s) (FTerm cn_secret oo)) /\
  exists c, consign bit_hashes cn_merkle 10 s' true fd_first [] (Some cn_secret) = Some (Ok c) /\ c_bundles c <> [].
Proof.
  intros OG. destruct (C90_composed_nonvacuous OG) as (batch & E0 & _ & _ & Pa & E & M & Co & Os & _ & _).
  destruct (C90_pays_once_nonvacuous OG) as (batch' & _ & _ & E' & Po & _). rewrite E in E'. injection E' as <-.
  assert (Ck : match compose bit_hashes cx_defs bx_pedersen false py_payer cx_apart cx_orders py_invoice cx_prev TapretFirst None 7 50%Z with
    | Ok batch => he_check py_payer (he_fascia batch) | _ => false end = true) by (vm_compute; reflexivity).
  rewrite E in Ck.
  assert (Fi : match compose bit_hashes cx_defs bx_pedersen false py_payer cx_apart cx_orders py_invoice cx_prev TapretFirst None 7 50%Z with
    | Ok batch => let t := ti_transition (di_first (ba_main batch)) in
        (op_id bit_hashes t =? fd_first) = false /\
        exists ty ta no y, op_assigns t = [(ty, ta)] /\ nth_error (ta_list ta) no = Some y /\ secret_of y = Some cn_secret
    | _ => False end).
  { vm_compute. split; [reflexivity|]. eexists. eexists.
    first [exists 0%nat; eexists; split; [reflexivity|split; reflexivity]|exists 1%nat; eexists; split; [reflexivity|split; reflexivity]]. }
  rewrite E in Fi. cbv zeta in Fi. destruct Fi as (Hne & ty & ta & no & y & Ea & Hn & Hs).
  exists batch, (op_id bit_hashes (ti_transition (di_first (ba_main batch)))), (ti_transition (di_first (ba_main batch))), ty, no, y. cbv zeta.
  split; [exact bit_collision_free|]. split; [exact bit_no_cycles|]. split; [exact cn_proves|]. split; [exact E0|]. split; [exact Pa|]. split; [exact E|].
  split. { destruct M as [M1 M2 M3 M4]. constructor; assumption. }
  split; [exact Co|]. split; [exact Os|].
  split.
  { apply (he_settled py_payer fd_calls (he_fascia batch) fd_first cx_prev E0 he_calls he_succeeded he_fresh_payer Ck (he_anchors batch)). rewrite he_bundles. exact (mo_bundles _ _ _ M). }
  split; [eexists; vm_compute; reflexivity|].
  split; [exact (Co (di_first (ba_main batch)) (or_introl eq_refl))|].
  split; [apply N.eqb_neq, Hne|]. split. { exists ta. split; [rewrite Ea; left; reflexivity|exact Hn]. }
  split; [exact Hs|]. split; [exact Po|]. split.
  { intros oo (set & Et & _). assert (En : mget cn_secret (mi_terminals (sk_index py_payer)) = None) by (vm_compute; reflexivity). rewrite En in Et. discriminate Et. }
  assert (C4 : match compose bit_hashes cx_defs bx_pedersen false py_payer cx_apart cx_orders py_invoice cx_prev TapretFirst None 7 50%Z with
    | Ok batch => he_handed batch | _ => false end = true) by (vm_compute; reflexivity).
  rewrite E in C4. exact (he_handed_ok batch C4).
Qed.

Print Assumptions C90_invoice_to_consignment.
Print Assumptions C90_invoice_to_consignment_nonvacuous.
