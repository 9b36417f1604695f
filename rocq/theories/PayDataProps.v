(** * Payments of data, from an invoice to the state of the payee: property theorems C68 *)
From Coq Require Import Ascii String Lia.
From Verif Require Import Base Str StM Core Ser MergeModel MergeSpec MergeProofs ContainerModel ContainerSpec ContainerProofs.
From Verif Require Import PIndexModel PIndexSpec PIndexProofs StateModel StateSpec StateProofs StashModel StashSpec StashProofs StashAgain StashProps.
From Verif Require Import StockModel StockProofs StockAgain ConsignModel ConsignSpec ConsignProofs ConsignAccept ConsignProps FasciaProps StockProps StateProps.
From Verif Require Import TransferProofs TransferSpec TransferProps ExportProps.
From Verif Require Import InvoiceModel SupplModel IfaceModel BuilderModel BuilderSpec BuilderProofs BuilderComplete BuilderProps ComposeModel ComposeSpec ComposeProofs ComposeMain ComposePaid
  ComposeBlank ComposeErr ComposeProps FoundProps PaySpec PayProofs PayProps.
Local Open Scope list_scope.
Local Open Scope N_scope.

(** A call which composes the payment of the allocation [al], under these conditions: [l] is the
    state of the contract on the given outputs, and the functions of the payer give different
    outputs or blindings to inputs of one type. *)
Definition paying_data (D : Defs) (wrap : bool) (s : Stock) (ch : Choices) (od : Orders) (inv : RgbInvoice) (prev : list OutSeal)
    (cid tt a : N) (al : Allocation) (l : list Inp) : Prop :=
  orders_ok od /\ schemata_small D /\ owned_state inv = ISData al /\ asks D s inv cid tt a /\ spent s cid prev l /\ no_wrap wrap a l /\
  separate ch use_main cid (velocity_for D s cid) (other_types a l).

(** The output [oo] of one of the transitions [ts], of the type [ty], came to the stock under the
    seal [x] with the datum [v], and no other output of the transitions is of that type. *)
Definition holds_datum {OG : OrdKey GlobalOut} (H : Hashes) (s : Stock) (r : Resolver) (cid : N) (w : WitnessId)
    (ts : list TransitionInfo) (ty : N) (x : Seal) (oo : Opout) (v : N) : Prop :=
  oo_ty oo = ty /\ (exists i, In i ts /\ oo_op oo = op_id H (ti_transition i)) /\
  (exists salt, receives s r cid KStructured oo x (RData v salt) w) /\
  forall i ta no y, In i ts -> In (ty, ta) (op_assigns (ti_transition i)) -> nth_error (ta_list ta) no = Some y ->
    oo = {| oo_op := op_id H (ti_transition i); oo_ty := ty; oo_no := N.of_nat no |}.

Lemma moved_type ch method layer u cid vel a l R y : Forall2 (moved ch method layer u cid vel) (other_types a l) R -> In (a, y) R -> False.
Proof.
  intros F Hin. assert (G : Forall (fun p : N * Assign => fst p <> a) R).
  { assert (Hl : Forall (fun x => in_ty x <> a) (other_types a l)).
    { apply Forall_forall. intros x Hx. apply filter_In in Hx as [_ Hx]. apply negb_true_iff, N.eqb_neq in Hx. exact Hx. }
    clear Hin. induction F as [|x p l' R' M F IH]; [constructor|]. apply Forall_cons.
    - destruct M as (seal & _ & ->). cbn. exact (Forall_inv Hl).
    - apply IH. exact (Forall_inv_tail Hl). }
  rewrite Forall_forall in G. exact (G _ Hin eq_refl).
Qed.

Lemma unblinded_data seal v salt y : unblinded y = assigned seal (RData v salt) -> y = assigned seal (RData v salt).
Proof.
  destruct y, seal; cbn; intros E; try discriminate; injection E as <- E;
    match type of E with unblind ?st = _ => destruct st; cbn in E; try discriminate E; rewrite E; reflexivity end.
Qed.

Lemma one_slot (H : Hashes) (t : Operation) (a : N) : (length (filter (fun p => (fst p =? a)%N) (made t)) <= 1)%nat ->
  forall ta no y ta' no' y', In (a, ta) (op_assigns t) -> nth_error (ta_list ta) no = Some y ->
    In (a, ta') (op_assigns t) -> nth_error (ta_list ta') no' = Some y' -> no = no'.
Proof.
  intros Hl ta no y ta' no' y' Ha Hn Ha' Hn'.
  set (o := {| oo_op := op_id H t; oo_ty := a; oo_no := N.of_nat no |}). set (o' := {| oo_op := op_id H t; oo_ty := a; oo_no := N.of_nat no' |}).
  assert (I1 : In (o, y) (filter (fun q => oo_ty (fst q) =? a) (slots H t))).
  { apply filter_In. split; [apply slots_In; exists a, ta, no; auto|apply N.eqb_refl]. }
  assert (I2 : In (o', y') (filter (fun q => oo_ty (fst q) =? a) (slots H t))).
  { apply filter_In. split; [apply slots_In; exists a, ta', no'; auto|apply N.eqb_refl]. }
  assert (El : length (filter (fun q => oo_ty (fst q) =? a) (slots H t)) = length (filter (fun p => fst p =? a) (made t))).
  { rewrite <- (slots_made H t). clear. induction (slots H t) as [|[oo y] l IH]; [reflexivity|]. cbn [map filter fst snd]. destruct (oo_ty oo =? a); cbn [length]; rewrite IH; reflexivity. }
  assert (Eo : o = o').
  { destruct (filter (fun q => oo_ty (fst q) =? a) (slots H t)) as [|q [|q' l]]; cbn [length] in El; [destruct I1| |lia].
    destruct I1 as [->|[]], I2 as [I2|[]]. congruence. }
  injection Eo as Eo. apply Nat2N.inj, Eo.
Qed.

Lemma map_one {A B} (f : A -> B) l x y : NoDup (map f l) -> In x l -> In y l -> f x = f y -> x = y.
Proof.
  induction l as [|z l IH]; intros Nd Hx Hy E; [destruct Hx|]. cbn [map] in Nd. apply NoDup_cons_iff in Nd as [Nin Nd].
  destruct Hx as [Hx|Hx], Hy as [Hy|Hy]; [congruence| | |apply IH; assumption].
  - exfalso. apply Nin. rewrite Hx, E. apply in_map, Hy.
  - exfalso. apply Nin. rewrite Hy, <- E. apply in_map, Hx.
Qed.

Section Datum.
Context {OG : OrdKey GlobalOut} (H : Hashes) (D : Defs) (P : Pedersen) (wrap : bool) (s : Stock) (ch : Choices) (od : Orders).

(** The one output with the datum *)
Lemma data_output inv prev method vout priority now batch cid tt a al l :
  paying_data D wrap s ch od inv prev cid tt a al l ->
  compose H D P wrap s ch od inv prev method vout priority now = Ok batch ->
  let ts := di_iter (ba_main batch) in
  exists ben i ta no salt, is_beneficiary D ch (layer1 (chain_network (beneficiary inv))) cid a (xcn_into_inner (beneficiary inv)) vout ben /\
    In i ts /\ In (a, ta) (op_assigns (ti_transition i)) /\ ta_kind ta = KStructured /\
    nth_error (ta_list ta) no = Some (BuilderSpec.assigned ben (RData (df_alloc D al) salt)) /\
    forall i' ta' no' y, In i' ts -> In (a, ta') (op_assigns (ti_transition i')) -> nth_error (ta_list ta') no' = Some y -> i' = i /\ no' = no.
Proof.
  intros (P1 & P2 & P3 & P4 & P5 & P6 & P7) E ts.
  destruct (C38_data_partial H D P wrap s ch od inv prev method vout priority now batch cid tt a l al P1 P2 P3 P4 P5 P6 P7 E) as ((Nm & Sp & _) & ben & payer & Hben & Hd & Ht).
  assert (Hx : exists x, In x (with_method payer l)).
  { unfold data_in in Hd. apply in_flat_map in Hd as (x & Hx & _). exists x. exact Hx. }
  destruct Hx as (x & Hx). apply filter_In in Hx as [Hxl Hxm]. apply keqb_true in Hxm.
  destruct (Sp x Hxl) as (i & Hi & Em). rewrite Hxm in Em.
  assert (Hf : forall i', In i' ts -> Permutation (filter (fun p => fst p =? a) (shown (ti_transition i')))
     (if keqb (ti_method i') payer then [(a, BuilderSpec.assigned ben (RData (df_alloc D al) (ch_seal ch USalt cid a)))] else [])).
  { intros i' Hi'. destruct (Ht i' Hi') as (_ & R & FR & Hp). eapply perm_trans; [apply BuilderComplete.filter_perm; exact Hp|]. rewrite filter_app.
    replace (filter (fun p => fst p =? a) R) with (@nil (N * Assign)).
    - destruct (keqb (ti_method i') payer); cbn; [rewrite N.eqb_refl|]; apply Permutation_refl.
    - symmetry. destruct (filter (fun p => fst p =? a) R) as [|[t y] rest] eqn:Er; [reflexivity|]. exfalso.
      assert (Hin : In (t, y) (filter (fun p => fst p =? a) R)) by (rewrite Er; left; reflexivity).
      apply filter_In in Hin as [Hin Et]. apply N.eqb_eq in Et. cbn in Et. subst t. exact (moved_type _ _ _ _ _ _ _ _ _ _ FR Hin). }
  assert (Hlen : forall i', In i' ts -> length (filter (fun p => fst p =? a) (made (ti_transition i'))) = if keqb (ti_method i') payer then 1%nat else 0%nat).
  { intros i' Hi'. pose proof (Permutation_length (Hf i' Hi')) as HL. transitivity (length (filter (fun p => fst p =? a) (shown (ti_transition i')))).
    - unfold shown. generalize (made (ti_transition i')). clear. intros m. induction m as [|[t y] m IH]; [reflexivity|]. cbn [map filter fst snd]. destruct (t =? a); cbn [length]; rewrite IH; reflexivity.
    - rewrite HL. destruct (keqb (ti_method i') payer); reflexivity. }
  assert (Hin : In (a, BuilderSpec.assigned ben (RData (df_alloc D al) (ch_seal ch USalt cid a))) (filter (fun p => fst p =? a) (shown (ti_transition i)))).
  { eapply Permutation_in; [apply Permutation_sym, (Hf i Hi)|]. rewrite Em, keqb_refl. left. reflexivity. }
  apply filter_In in Hin as [Hin _]. unfold shown in Hin. apply in_map_iff in Hin as ([t y] & Ey & Hin). cbn [fst snd] in Ey.
  apply pair_equal_spec in Ey as [-> Ey]. apply unblinded_data in Ey. subst y.
  rewrite <- (slots_made H) in Hin. apply in_map_iff in Hin as ([oo y] & Ey & Hin). cbn [fst snd] in Ey. apply pair_equal_spec in Ey as [Et ->].
  apply slots_In in Hin as (t & ta & no & Hta & Hno & ->). cbn [oo_ty] in Et. subst t.
  exists ben, i, ta, no, (ch_seal ch USalt cid a). split; [exact Hben|]. split; [exact Hi|]. split; [exact Hta|]. split.
  { destruct (compose_kinded _ _ _ _ _ _ _ _ _ _ _ _ _ _ E _ (or_introl eq_refl) i Hi a ta _ Hta (nth_error_In _ _ Hno)) as (st & Es & <-).
    destruct ben; cbn in Es; apply Some_inj in Es; subst st; reflexivity. }
  split; [exact Hno|]. intros i' ta' no' y Hi' Hta' Hno'.
  assert (Ei : i' = i).
  { destruct (keqb (ti_method i') payer) eqn:Ek.
    - apply keqb_true in Ek. apply (map_one ti_method ts i' i Nm Hi' Hi). congruence.
    - exfalso. specialize (Hlen i' Hi'). rewrite Ek in Hlen.
      assert (Hin : In (a, y) (filter (fun p => fst p =? a) (made (ti_transition i')))).
      { apply filter_In. split; [|apply N.eqb_refl]. apply in_flat_map. exists (a, ta'). split; [exact Hta'|]. apply in_map_iff. exists y. split; [reflexivity|]. exact (nth_error_In _ _ Hno'). }
      destruct (filter (fun p => fst p =? a) (made (ti_transition i'))); [destruct Hin|discriminate]. }
  split; [exact Ei|]. subst i'. refine (one_slot H (ti_transition i) a _ _ _ _ _ _ _ Hta' Hno' Hta Hno).
  rewrite (Hlen i Hi). destruct (keqb _ _); auto.
Qed.
End Datum.

(** C68 for data: the payer composes the payment of an allocation invoiced with a blinded seal, has
    the transaction committing to it in its stock, exports the contract for that seal; the payee, who
    has the seal, accepts.  Then the payee has the allocation under the seal, in the only output
    of its type which the transitions make. *)
Theorem C68_data_blinded_partial : forall (OG : OrdKey GlobalOut) H K D P wrap sA ch od inv prev method vout priority now batch cid tt a al l f rA sA' fuel transfer c sB r sB' x0 x,
  collision_free H ->
  paying_data D wrap sA ch od inv prev cid tt a al l ->
  compose H D P wrap sA ch od inv prev method vout priority now = Ok batch ->
  xcn_into_inner (beneficiary inv) = BlindedSeal x0 -> df_secret D (layer1 (chain_network (beneficiary inv))) x0 = h_seal H x ->
  let ts := di_iter (ba_main batch) in
  published H K f rA sA sA' cid ts -> fresh H f sA cid ts ->
  consign H K fuel sA' transfer cid [] (Some (h_seal H x)) = Some (Ok c) ->
  reachable H K sB -> seal_secret H (sk_stash sB) (h_seal H x) = Some x ->
  accept_body H K c r sB = (sB', Ok Datatypes.tt) ->
  exists oo, holds_datum H sB' r cid (fascia_witness_id f) ts a x oo (df_alloc D al).
Proof.
  intros OG H K D P wrap sA ch od inv prev method vout priority now batch cid tt a al l f rA sA' fuel transfer c sB r sB' x0 x HC Pay E Eb Es ts Pb Fr Ec ReB Sx Ac.
  destruct (data_output H D P wrap sA ch od inv prev method vout priority now batch cid tt a al l Pay E) as (ben & i & ta & no & salt & Hben & Hi & Hta & Ek & Hn & Hone).
  rewrite Eb in Hben. cbn [is_beneficiary] in Hben. destruct Hben as [_ ->]. rewrite Es in Hn. cbn [BuilderSpec.assigned] in Hn.
  exists {| oo_op := op_id H (ti_transition i); oo_ty := a; oo_no := N.of_nat no |}. split; [reflexivity|]. split; [exists i; auto|]. split.
  - exists salt. rewrite <- Ek.
    destruct Pb as (ReA & Okf & Ef & Nb & Co). destruct (Co i Hi) as (b & Hb & Ht). destruct Fr as [Fb Fo].
    exact (C62_paid OG H K fuel sA f rA sA' cid b _ _ a ta no x _ transfer c sB r sB' HC ReA ReB Okf Ef Hb Nb (Fb b Hb) Ht (Fo i Hi) Hta Hn Sx Ec Ac).
  - intros i' ta' no' y Hi' Hta' Hno'. destruct (Hone i' ta' no' y Hi' Hta' Hno') as [-> ->]. reflexivity.
Qed.

(** and so for a payee known by an address, whose output is one of those the contract is exported for *)
Theorem C68_data_witness_partial : forall (OG : OrdKey GlobalOut) H K D P wrap sA ch od inv prev method vout priority now batch cid tt a al l f rA sA' fuel transfer outputs secret c sB r sB' p o,
  collision_free H ->
  paying_data D wrap sA ch od inv prev cid tt a al l ->
  compose H D P wrap sA ch od inv prev method vout priority now = Ok batch ->
  xcn_into_inner (beneficiary inv) = WitnessVout p ->
  let ts := di_iter (ba_main batch) in
  published H K f rA sA sA' cid ts -> fresh H f sA cid ts ->
  In o outputs -> os_layer o = w_layer (fascia_witness_id f) -> os_txid o = w_txid (fascia_witness_id f) -> vout = Some (os_vout o) ->
  p2v_method p = OpretFirst \/ one_seal sA' cid outputs ->
  consign H K fuel sA' transfer cid outputs secret = Some (Ok c) ->
  reachable H K sB -> accept_body H K c r sB = (sB', Ok Datatypes.tt) ->
  exists x oo, s_txid x = None /\ s_vout x = os_vout o /\ s_method x = p2v_method p /\
    holds_datum H sB' r cid (fascia_witness_id f) ts a x oo (df_alloc D al).
Proof.
  intros OG H K D P wrap sA ch od inv prev method vout priority now batch cid tt a al l f rA sA' fuel transfer outputs secret c sB r sB' p o HC Pay E Eb ts Pb Fr Ho El Ex Ev Os Ec ReB Ac.
  destruct (data_output H D P wrap sA ch od inv prev method vout priority now batch cid tt a al l Pay E) as (ben & i & ta & no & salt & Hben & Hi & Hta & Ek & Hn & Hone).
  rewrite Eb in Hben. cbn [is_beneficiary] in Hben. destruct Hben as (v & Ev' & ->). rewrite Ev in Ev'. injection Ev' as <-.
  cbn [BuilderSpec.assigned] in Hn.
  match type of Hn with context [Revealed ?y] => set (x := y) in * end.
  exists x, {| oo_op := op_id H (ti_transition i); oo_ty := a; oo_no := N.of_nat no |}.
  split; [reflexivity|]. split; [reflexivity|]. split; [reflexivity|]. split; [reflexivity|]. split; [exists i; auto|]. split.
  - exists salt. rewrite <- Ek.
    exact (witness_receives H HC K f rA sA sA' cid ts i a ta no x _ fuel transfer outputs secret c sB r sB' o Pb Fr Hi Hta Hn Ho eq_refl eq_refl El Ex Os Ec ReB Ac).
  - intros i' ta' no' y Hi' Hta' Hno'. destruct (Hone i' ta' no' y Hi' Hta' Hno') as [-> ->]. reflexivity.
Qed.

(** The payer's stock has the inputs of other types.  Missing: other allocations of the paid type,
    which are lost (C38_data_refuted). *)
Theorem C68_data_kept_partial : forall (OG : OrdKey GlobalOut) H K D P wrap sA ch od inv prev method vout priority now batch cid tt a al l f rA sA',
  collision_free H ->
  paying_data D wrap sA ch od inv prev cid tt a al l ->
  compose H D P wrap sA ch od inv prev method vout priority now = Ok batch ->
  let ts := di_iter (ba_main batch) in
  published H K f rA sA sA' cid ts ->
  exists back, returned H sA' rA ch method (layer1 (chain_network (beneficiary inv))) use_main cid (velocity_for D sA cid) (fascia_witness_id f) ts (other_types a l) back.
Proof.
  intros OG H K D P wrap sA ch od inv prev method vout priority now batch cid tt a al l f rA sA' HC (P1 & P2 & P3 & P4 & P5 & P6 & P7) E ts Pb.
  destruct (C38_data_partial H D P wrap sA ch od inv prev method vout priority now batch cid tt a l al P1 P2 P3 P4 P5 P6 P7 E) as (Sp & ben & payer & _ & _ & Ht).
  pose proof P5 as (Nd & _).
  destruct (returned_all H HC K f rA sA sA' ch method (layer1 (chain_network (beneficiary inv))) use_main cid (velocity_for D sA cid) l
    (fun i => other_types a (with_method (ti_method i) l)) ts Nd Sp Pb) as (back & Hp & Hb).
  - intros i Hi. exact (compose_kinded _ _ _ _ _ _ _ _ _ _ _ _ _ _ E _ (or_introl eq_refl) i Hi).
  - intros i Hi. destruct (Ht i Hi) as (_ & R & FR & Hp). exists R. eexists. split; [exact FR|exact Hp].
  - exists back. split; [|exact Hb]. eapply perm_trans; [exact Hp|]. exact (others_perm cid a l ts Sp).
Qed.

(** ** Example: an allocation paid from outputs with both closing methods, which also hold amounts *)
Definition pd_gen : Operation := fd_gen 8
  [(10, {| ta_kind := KFungible; ta_list := [Revealed (fd_seal TapretFirst 1) (RAmount 30 11 77); Revealed (fd_seal OpretFirst 2) (RAmount 25 12 77)] |});
   (12, {| ta_kind := KStructured; ta_list := [Revealed (fd_seal OpretFirst 2) (RData 7 4)] |})].
Definition pd_id : N := op_id bit_hashes pd_gen.
Definition pd_calls : list StockCall := [SkAccept (fd_cons pd_gen) yes_witness; SkAccept (fd_cons fd_two) yes_witness].
Definition pd_payer {OG : OrdKey GlobalOut} : Stock := stock_after bit_hashes cn_merkle sk_empty pd_calls.
Definition pd_alloc : Allocation := {| al_index := 7; al_fraction := 1 |}.
Definition pd_invoice : RgbInvoice :=
  {| transports := []; InvoiceModel.contract := Some pd_id; InvoiceModel.iface := Some (lit "A"%string); InvoiceModel.operation := None;
     InvoiceModel.assignment := Some (lit "assetOwner12"%string); beneficiary := XBitcoinMainnet (BlindedSeal cn_secret); owned_state := ISData pd_alloc; expiry := None; unknown_query := [] |}.
Definition pd_anchor : Anchor := {| an_root := 1; an_known := mfrom [(pd_id, 5); (fd_second, 6)]; an_dbc := 0 |}.
Definition pd_fascia (b : Batch) : Fascia :=
  {| fa_witness := {| xw_layer := Bitcoin; xw_pub := PwTxid 10 |}; fa_anchor := ASDouble pd_anchor pd_anchor;
     fa_bundles := mfrom ((pd_id, py_bundles (ba_main b)) :: map (fun d => (fd_second, py_bundles d)) (ba_blanks b)) |}.
Definition pd_l : list Inp :=
  [(cx_seal TapretFirst 1, ({| oo_op := pd_id; oo_ty := 10; oo_no := 0 |}, RAmount 30 11 77));
   (cx_seal OpretFirst 2, ({| oo_op := pd_id; oo_ty := 10; oo_no := 1 |}, RAmount 25 12 77));
   (cx_seal OpretFirst 2, ({| oo_op := pd_id; oo_ty := 12; oo_no := 0 |}, RData 7 4))].
Lemma pd_reachable {OG : OrdKey GlobalOut} : reachable bit_hashes cn_merkle pd_payer.
Proof. exists pd_calls. split; [|reflexivity]. intros x [<-|[<-|[]]]; apply cons_okb_ok; vm_compute; reflexivity. Qed.
Lemma pd_paying {OG : OrdKey GlobalOut} : paying_data cx_defs false pd_payer cx_apart cx_orders pd_invoice cx_prev pd_id 20 12 pd_alloc pd_l.
Proof.
  split; [exact cx_orders_ok|]. split; [exact cx_small|]. split; [reflexivity|]. split.
  { eexists (lit "A"%string), pd_gen, _, _, _, bx. split; [reflexivity|]. split; [reflexivity|]. split; [vm_compute; reflexivity|]. split; [vm_compute; reflexivity|].
    split; [vm_compute; reflexivity|]. split; [vm_compute; reflexivity|]. repeat (split; [reflexivity|]). split; [exists 20; split; reflexivity|].
    exists 12. split; reflexivity. }
  split. { eapply spent_of; [vm_compute; reflexivity|vm_compute; reflexivity|]. repeat constructor; cbn; intuition discriminate. }
  split; [left; reflexivity|].
  intros x y Hx Hy _ _ Ea _. vm_compute in Hx, Hy. repeat destruct Hx as [<-|Hx]; try destruct Hx; repeat destruct Hy as [<-|Hy]; try destruct Hy; try reflexivity; vm_compute in Ea; discriminate.
Qed.

Lemma pd_commits b cid d : mget cid (fa_bundles (pd_fascia b)) = Some (py_bundles d) -> commits_to bit_hashes (pd_fascia b) cid (di_iter d).
Proof.
  intros E i Hi. exists (py_bundle i). split; [|left; reflexivity]. unfold fascia_bundles. apply in_flat_map. exists (cid, py_bundles d). split; [apply mget_In, E|].
  cbn [fst snd]. apply (in_map (fun b => (cid, b))). destruct d as [x [y|]]; cbn in *; intuition (subst; auto).
Qed.

Example C68_data_nonvacuous : forall OG : OrdKey GlobalOut, exists batch sA' c sB',
  paying_data cx_defs false pd_payer cx_apart cx_orders pd_invoice cx_prev pd_id 20 12 pd_alloc pd_l /\
  compose bit_hashes cx_defs bx_pedersen false pd_payer cx_apart cx_orders pd_invoice cx_prev TapretFirst None 7 50%Z = Ok batch /\
  df_secret cx_defs Bitcoin cn_secret = h_seal bit_hashes ex_secret /\
  len (di_iter (ba_main batch)) = 2 /\ len (ba_blanks batch) = 1 /\
  published bit_hashes cn_merkle (pd_fascia batch) yes_witness pd_payer sA' pd_id (di_iter (ba_main batch)) /\
  fresh bit_hashes (pd_fascia batch) pd_payer pd_id (di_iter (ba_main batch)) /\
  consign bit_hashes cn_merkle 10 sA' true pd_id [] (Some (h_seal bit_hashes ex_secret)) = Some (Ok c) /\
  reachable bit_hashes cn_merkle tx_payee /\ seal_secret bit_hashes (sk_stash tx_payee) (h_seal bit_hashes ex_secret) = Some ex_secret /\
  accept_body bit_hashes cn_merkle c yes_witness tx_payee = (sB', Ok tt).
Proof.
  intros OG.
  destruct (compose bit_hashes cx_defs bx_pedersen false pd_payer cx_apart cx_orders pd_invoice cx_prev TapretFirst None 7 50%Z) as [batch| |] eqn:E;
    [|exfalso; vm_compute in E; discriminate E|exfalso; vm_compute in E; discriminate E].
  vm_compute in E. injection E as E.
  assert (E1 : match fascia_body bit_hashes (pd_fascia batch) yes_witness pd_payer with
       | (s1, Ok _) => match consign bit_hashes cn_merkle 10 s1 true pd_id [] (Some (h_seal bit_hashes ex_secret)) with
                 | Some (Ok c) => match snd (accept_body bit_hashes cn_merkle c yes_witness tx_payee) with Ok _ => true | _ => false end
                 | _ => false end
       | _ => false end = true) by (subst batch; vm_compute; reflexivity).
  destruct (fascia_body bit_hashes (pd_fascia batch) yes_witness pd_payer) as [sA' [[]|e|]] eqn:Ef; try discriminate E1.
  destruct (consign bit_hashes cn_merkle 10 sA' true pd_id [] (Some (h_seal bit_hashes ex_secret))) as [[c|e|]|] eqn:Ec; try discriminate E1.
  destruct (accept_body bit_hashes cn_merkle c yes_witness tx_payee) as [sB' [[]|e|]] eqn:Ea; try discriminate E1.
  exists batch, sA', c, sB'. clear E1.
  assert (Okf : stock_call_ok bit_hashes (SkFascia (pd_fascia batch) yes_witness)).
  { assert (Hb : forallb (fun p => bundle_okb bit_hashes (snd p)) (fascia_bundles (pd_fascia batch)) = true) by (subst batch; vm_compute; reflexivity).
    rewrite forallb_forall in Hb. intros p Hp. apply bundle_okb_ok, Hb, Hp. }
  assert (Nd : NoDup (map (fun p => bundle_id bit_hashes (snd p)) (fascia_bundles (pd_fascia batch)))) by (apply nodupb_ok; subst batch; vm_compute; reflexivity).
  assert (Em : mget pd_id (fa_bundles (pd_fascia batch)) = Some (py_bundles (ba_main batch))) by (subst batch; vm_compute; reflexivity).
  split; [exact pd_paying|]. split; [reflexivity|]. split; [reflexivity|]. split; [subst batch; reflexivity|]. split; [subst batch; reflexivity|].
  split. { split; [exact pd_reachable|]. split; [exact Okf|]. split; [exact Ef|]. split; [exact Nd|]. apply pd_commits, Em. }
  split. { split.
    - assert (Hn : forallb (fun p => negb (mhas (bundle_id bit_hashes (snd p)) (st_bundles (sk_stash pd_payer))) && negb (mhas (bundle_id bit_hashes (snd p)) (mi_bundle_witness (sk_index pd_payer)))) (fascia_bundles (pd_fascia batch)) = true)
        by (subst batch; vm_compute; reflexivity).
      rewrite forallb_forall in Hn. intros b Hb. specialize (Hn _ Hb). cbn [snd] in Hn. apply andb_prop in Hn as [N1 N2]. apply not_there in N1, N2. split; [exact N1|].
      intros w (ws & Ew & _). exact (eq_ind None (fun o => match o with None => True | _ => False end) Logic.I _ (eq_trans (eq_sym N2) Ew)).
    - assert (Hn : forallb (fun i => negb (op_id bit_hashes (ti_transition i) =? pd_id)) (di_iter (ba_main batch)) = true) by (subst batch; vm_compute; reflexivity).
      rewrite forallb_forall in Hn. intros i Hi Ei. specialize (Hn i Hi). rewrite Ei, N.eqb_refl in Hn. discriminate. }
  split; [exact Ec|]. split; [exact tx_payee_reachable|]. split; [vm_compute; reflexivity|]. exact Ea.
Qed.

Print Assumptions C68_data_blinded_partial.
Print Assumptions C68_data_witness_partial.
Print Assumptions C68_data_kept_partial.
