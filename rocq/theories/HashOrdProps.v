(** * Composing a payment does not depend on hash maps: C78 *)
From Coq Require Import Ascii String.
From Verif Require Import Base Str Core InvoiceModel SupplModel ContainerModel PIndexModel StateModel StashModel StockModel ConsignModel IfaceModel IfaceProps
  BuilderModel BuilderSpec BuilderProofs BuilderProps Ser ComposeModel ComposeSpec ComposeProofs ComposeMain ComposePaid ComposeBlank ComposeProps
  HashOrdSpec HashOrdMain.
Local Open Scope list_scope.
Local Open Scope N_scope.

(** Whatever the orders in which hash maps and sets list what they have: the payment is composed
    in both, or in none.  If it is, then the transitions of the contract are the same, and there
    are the same blank transitions.  Conditions: state which goes back to the payer goes to
    different seals, and no two rights of a type are moved at once.  Missing from C78: without
    these the transitions depend on the order ([C78_seals_refuted], [C78_rights_refuted]), and
    the order of the blank transitions does ([C78_blanks_refuted]). *)
Theorem C78_compose_partial H D P wrap s ch od od' inv prev method vout priority now :
  orders_ok od -> orders_ok od' ->
  (forall cid tt a, asks D s inv cid tt a -> apart_main D s ch cid a prev) ->
  (forall cid id, InvoiceModel.contract inv = Some cid -> In id (contracts_assigning (sk_index s) (sfrom (map os_outpoint prev))) -> id <> cid ->
     apart_blank D s ch id prev) ->
  agree same_batch (compose H D P wrap s ch od inv prev method vout priority now) (compose H D P wrap s ch od' inv prev method vout priority now).
Proof.
  intros Ho Ho' Hm Hb. unfold agree.
  destruct (compose H D P wrap s ch od inv prev method vout priority now) as [b|e|] eqn:E.
  - destruct (compose_same H D P wrap s ch od od' Ho Ho' _ _ _ _ _ _ _ Hm Hb E) as (b' & -> & R). exact R.
  - destruct (compose H D P wrap s ch od' inv prev method vout priority now) as [b'|e'|] eqn:E'; try exact I.
    destruct (compose_same H D P wrap s ch od' od Ho' Ho _ _ _ _ _ _ _ Hm Hb E') as (b & Eb & _). congruence.
  - destruct (compose H D P wrap s ch od' inv prev method vout priority now) as [b'|e'|] eqn:E'; try exact I.
    destruct (compose_same H D P wrap s ch od' od Ho' Ho _ _ _ _ _ _ _ Hm Hb E') as (b & Eb & _). congruence.
Qed.

(** ** A world with three contracts *)
Definition hx_stash : MemStash :=
  {| st_schemata := st_schemata cx_stash; st_ifaces := st_ifaces cx_stash;
     st_geneses := [(600, cx_genesis 600); (700, cx_genesis 700); (800, cx_genesis 800)];
     st_suppl := []; st_bundles := []; st_extensions := []; st_witnesses := [];
     st_attachments := []; st_seals := []; st_types := []; st_identities := []; st_libs := []; st_sigs := [] |}.
Definition hx_stock (l l7 l8 : list Inp) : Stock :=
  {| sk_stash := hx_stash;
     sk_state := {| ms_witnesses := []; ms_contracts := [(600, cx_contract 600 l); (700, cx_contract 700 l7); (800, cx_contract 800 l8)] |};
     sk_index := {| mi_op_bundle := []; mi_bundle_contract := []; mi_bundle_witness := [];
                    mi_contracts := [(600, cx_index l); (700, cx_index l7); (800, cx_index l8)]; mi_terminals := [] |} |}.
(** The same order as in the list, and the reverse of one or all *)
Definition hx_orders (outs assigns contracts rights : bool) : Orders :=
  {| or_outs := fun _ m => if outs then rev m else m; or_assigns := fun _ _ m => if assigns then rev m else m;
     or_contracts := fun m => if contracts then rev m else m; or_rights := fun l => if rights then rev l else l |}.
Lemma hx_orders_ok a b c d : orders_ok (hx_orders a b c d).
Proof.
  repeat split; cbn; intros.
  - destruct a; [apply Permutation_sym, Permutation_rev|apply Permutation_refl].
  - destruct b; [apply Permutation_sym, Permutation_rev|apply Permutation_refl].
  - destruct c; [apply Permutation_sym, Permutation_rev|apply Permutation_refl].
  - destruct d; [apply Permutation_sym, Permutation_rev|apply Permutation_refl].
Qed.
(** An output for each type *)
Definition hx_pure : Choices := {| ch_alloc := fun _ _ ty _ => Some ty; ch_blind := fun _ _ _ => 4; ch_seal := fun _ _ _ => 3 |}.
Definition hx_inv : RgbInvoice := cx_invoice (BlindedSeal 33) (ISAmount 40) None.
Definition hx_compose l l7 l8 ch od : result ComposeError Batch :=
  compose bit_hashes cx_defs bx_pedersen false (hx_stock l l7 l8) ch od hx_inv cx_prev TapretFirst None 7 50%Z.
Lemma hx_asks l l7 l8 : asks cx_defs (hx_stock l l7 l8) hx_inv 600 20 10.
Proof.
  eexists (lit "A"%string), (cx_genesis 600), _, _, _, bx. repeat (split; [reflexivity|]). split; [exists 20; split; reflexivity|].
  exists 10. split; [reflexivity|]. exists 20. eexists. repeat split; reflexivity.
Qed.
Definition hx_l : list Inp :=
  [(cx_seal TapretFirst 1, (cx_out 10 0, RAmount 30 11 77)); (cx_seal OpretFirst 2, (cx_out 10 1, RAmount 25 12 77));
   (cx_seal TapretFirst 1, (cx_out 10 2, RAmount 3 13 77)); (cx_seal OpretFirst 2, (cx_out 12 0, RData 6 4));
   (cx_seal TapretFirst 1, (cx_out 11 0, RVoid))].
Definition hx_l7 : list Inp :=
  [(cx_seal TapretFirst 1, (cx_out 10 0, RAmount 8 11 77)); (cx_seal OpretFirst 2, (cx_out 13 0, RAttach 9 9))].
Definition hx_l8 : list Inp := [(cx_seal OpretFirst 2, (cx_out 10 0, RAmount 1 11 77)); (cx_seal OpretFirst 2, (cx_out 11 0, RVoid))].

Ltac few := intros x y Hx Hy; vm_compute in Hx, Hy; repeat destruct Hx as [<-|Hx]; try destruct Hx; repeat destruct Hy as [<-|Hy]; try destruct Hy; try reflexivity; vm_compute; intros; discriminate.

(** With pure functions of the payer: amounts with both methods, a datum and a right of the
    contract; state of two other contracts.  All orders turned round give the same. *)
Example C78_nonvacuous :
  (forall cid tt a, asks cx_defs (hx_stock hx_l hx_l7 hx_l8) hx_inv cid tt a -> apart_main cx_defs (hx_stock hx_l hx_l7 hx_l8) hx_pure cid a cx_prev) /\
  (forall cid id, InvoiceModel.contract hx_inv = Some cid ->
     In id (contracts_assigning (sk_index (hx_stock hx_l hx_l7 hx_l8)) (sfrom (map os_outpoint cx_prev))) -> id <> cid ->
     apart_blank cx_defs (hx_stock hx_l hx_l7 hx_l8) hx_pure id cx_prev) /\
  exists b b', hx_compose hx_l hx_l7 hx_l8 hx_pure (hx_orders false false false false) = Ok b /\
    hx_compose hx_l hx_l7 hx_l8 hx_pure (hx_orders true true true true) = Ok b' /\
    same_batch b b' /\ len (di_iter (ba_main b)) = 2 /\ len (ba_blanks b) = 2.
Proof.
  split; [|split].
  - intros cid tt a Ha. destruct (asks_fun _ _ _ _ _ _ _ _ _ Ha (hx_asks hx_l hx_l7 hx_l8)) as (-> & -> & ->). exists hx_l. split; [|split].
    + eapply spent_of; [reflexivity|vm_compute; reflexivity|nodup].
    + few.
    + few.
  - intros cid id Hc Hi Hn. injection Hc as <-. assert (Hid : id = 600 \/ id = 700 \/ id = 800).
    { vm_compute in Hi. clear Hn. repeat destruct Hi as [<-|Hi]; auto. destruct Hi. }
    destruct Hid as [ -> | [ -> | -> ] ]; [destruct Hn; reflexivity| |].
    + exists hx_l7. split; [eapply spent_of; [reflexivity|vm_compute; reflexivity|nodup]|]. split; few.
    + exists hx_l8. split; [eapply spent_of; [reflexivity|vm_compute; reflexivity|nodup]|]. split; few.
  - destruct (hx_compose hx_l hx_l7 hx_l8 hx_pure (hx_orders false false false false)) as [b| |] eqn:E; [|exfalso; vm_compute in E; discriminate E..].
    destruct (hx_compose hx_l hx_l7 hx_l8 hx_pure (hx_orders true true true true)) as [b'| |] eqn:E'; [|exfalso; vm_compute in E'; discriminate E'..].
    exists b, b'. split; [reflexivity|]. split; [reflexivity|]. vm_compute in E, E'. injection E as <-. injection E' as <-.
    split; [split; [reflexivity|]|split; reflexivity]. cbn [ba_blanks]. apply perm_swap.
Qed.

(** ** What does not hold *)

Lemma not_nowhere v b :
  existsb (fun t => existsb (fun p => keqb (datum_of p) (Some v)) (made (ti_transition t))) (flat_map di_iter (ba_main b :: ba_blanks b)) = true -> ~ nowhere v b.
Proof.
  intros Hf Hn. apply existsb_exists in Hf as (t & Ht & Hf). apply existsb_exists in Hf as (p & Hp & Hf). apply keqb_true in Hf.
  unfold datum_of in Hf. destruct (revealed_state (snd p)) as [[| |v' salt|]|] eqn:E; try discriminate. injection Hf as ->. exact (Hn t p salt Ht Hp E).
Qed.

(** With pure functions of the payer two data of a type go to one seal, and which of them is lost
    depends on the order. *)
Theorem C78_seals_refuted : exists b b',
  hx_compose (cx_two ++ [(cx_seal OpretFirst 2, (cx_out 10 1, RAmount 25 12 77))]) [] [] hx_pure (hx_orders false false false false) = Ok b /\
  hx_compose (cx_two ++ [(cx_seal OpretFirst 2, (cx_out 10 1, RAmount 25 12 77))]) [] [] hx_pure (hx_orders false true false false) = Ok b' /\
  nowhere 6 b /\ nowhere 7 b' /\ ~ nowhere 7 b /\ ~ nowhere 6 b'.
Proof.
  destruct (hx_compose _ [] [] hx_pure (hx_orders false false false false)) as [b| |] eqn:E; [|exfalso; vm_compute in E; discriminate E..].
  destruct (hx_compose _ [] [] hx_pure (hx_orders false true false false)) as [b'| |] eqn:E'; [|exfalso; vm_compute in E'; discriminate E'..].
  exists b, b'. split; [reflexivity|]. split; [reflexivity|]. vm_compute in E, E'. injection E as <-. injection E' as <-.
  split; [apply nowhere_of; vm_compute; reflexivity|]. split; [apply nowhere_of; vm_compute; reflexivity|].
  split; apply not_nowhere; vm_compute; reflexivity.
Qed.

(** Two rights of a type, which go to different seals, are in the order of the set: the
    transition has another id. *)
Theorem C78_rights_refuted : exists b b',
  hx_compose cx_l [] [] cx_apart (hx_orders false false false false) = Ok b /\
  hx_compose cx_l [] [] cx_apart (hx_orders false false false true) = Ok b' /\
  separate cx_apart use_main 600 (velocity_for cx_defs (hx_stock cx_l [] []) 600) (other_types 10 cx_l) /\
  map ti_id (di_iter (ba_main b)) <> map ti_id (di_iter (ba_main b')).
Proof.
  destruct (hx_compose cx_l [] [] cx_apart (hx_orders false false false false)) as [b| |] eqn:E; [|exfalso; vm_compute in E; discriminate E..].
  destruct (hx_compose cx_l [] [] cx_apart (hx_orders false false false true)) as [b'| |] eqn:E'; [|exfalso; vm_compute in E'; discriminate E'..].
  exists b, b'. split; [reflexivity|]. split; [reflexivity|]. vm_compute in E, E'. injection E as <-. injection E' as <-. split; [few|].
  cbn. intros Eq. discriminate Eq.
Qed.

(** The blank transitions are in the order of a hash map. *)
Theorem C78_blanks_refuted : exists b b',
  hx_compose hx_l hx_l7 hx_l8 hx_pure (hx_orders false false false false) = Ok b /\
  hx_compose hx_l hx_l7 hx_l8 hx_pure (hx_orders false false true false) = Ok b' /\
  map (fun d => op_contract (ti_transition (di_first d))) (ba_blanks b) = [700; 800] /\
  map (fun d => op_contract (ti_transition (di_first d))) (ba_blanks b') = [800; 700].
Proof.
  destruct (hx_compose hx_l hx_l7 hx_l8 hx_pure (hx_orders false false false false)) as [b| |] eqn:E; [|exfalso; vm_compute in E; discriminate E..].
  destruct (hx_compose hx_l hx_l7 hx_l8 hx_pure (hx_orders false false true false)) as [b'| |] eqn:E'; [|exfalso; vm_compute in E'; discriminate E'..].
  exists b, b'. split; [reflexivity|]. split; [reflexivity|]. vm_compute in E, E'. injection E as <-. injection E' as <-. split; reflexivity.
Qed.

Print Assumptions C78_compose_partial.
Print Assumptions C78_seals_refuted.
Print Assumptions C78_rights_refuted.
Print Assumptions C78_blanks_refuted.
