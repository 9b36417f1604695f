(** * C88: a payment which can be recorded is recorded; refusals of kits, seals, updates *)
From Verif Require Import Base StM Core HashExists Ser MergeSpec ContainerModel ContainerSpec PIndexModel PIndexProofs.
From Verif Require Import StateModel StashModel StashSpec StashProofs StashAgain StashProps StockModel StockProofs StockAgain StockProps.
From Verif Require Import ConsignSpec ConsignAccept ConsignProps FasciaProps AcceptSpec AcceptProofs AcceptState AcceptStash AcceptProps.
From Verif Require Import RecordSpec RecordIndex RecordState RecordProofs PIndexSpec.
Local Open Scope N_scope.

(** The list of facts is the one meant by PIndexSpec.v. *)
Theorem fascia_facts_spec : forall H f x, In x (fascia_facts H f) <-> fascia_announces H f x.
Proof. exact facts_fascia. Qed.

Lemma reached_fits {OG : OrdKey GlobalOut} H K s : collision_free H -> reachable H K s -> good H (sk_stash s) /\ fits (sk_stash s).
Proof.
  intros HC (l & Hl & ->). destruct (after_moved H K l sk_empty) as (_ & _ & lh & Eh & Ph). rewrite Eh. apply fits_after; [exact HC|].
  eapply stash_of_ok; eassumption.
Qed.

(** Whatever calls were made before: if a fascia is refused, it is for one of the reasons of
    RecordSpec.v, which the error names; and a panic has one of the given causes. *)
Theorem C88_reasons : forall (OG : OrdKey GlobalOut) H K s f r,
  collision_free H -> reachable H K s -> stock_call_ok H (SkFascia f r) ->
  match snd (fascia_body H f r s) with
  | Ok _ => True
  | Err e => fascia_refused H r s f e
  | Panic => fascia_breaks s f
  end.
Proof.
  intros OG H K s f r HC Re Co. pose proof (fascia_runs H HC r f s (reached_fits H K s HC Re) (fun p Hp => proj1 (Co p Hp))) as R.
  destruct (fascia_body H f r s) as [s' [[]|e|]]; exact R.
Qed.

(** A fascia in order, for which there is room and which agrees with what is known, is taken.
    Missing for C88: the last condition, see [C88_recorded_refuted]. *)
Theorem C88_recorded_partial : forall (OG : OrdKey GlobalOut) H K s f r,
  collision_free H -> reachable H K s -> stock_call_ok H (SkFascia f r) ->
  recordable H r s f -> unclashing H s f -> snd (fascia_body H f r s) = Ok tt.
Proof.
  intros OG H K s f r HC Re Co P U. pose proof (C88_reasons OG H K s f r HC Re Co) as R.
  destruct P as [P1 P2 P3 P4 P5 P6 P7 P8 P9 P10 P11], U as [U1 U2 U3 U4].
  destruct (snd (fascia_body H f r s)) as [[]|e|]; [reflexivity|exfalso ..].
  2:{ unfold fascia_breaks in R. tauto. }
  destruct e as [e|e|e|cid bid| |]; cbn [fascia_refused] in R; try contradiction.
  - destruct e as [|e|e|e| |x|x|x|x|x|x|y]; try contradiction.
    + destruct R as (old & Eo & T1 & T2 & _). exact (U3 old Eo T1 T2).
    + destruct R as (old & m & x & y & Eo & Ex & Ey & Ee). destruct (U4 _ _ _ _ Eo Ex Ey) as [E1 E2]. destruct e; contradiction.
  - destruct e; try contradiction.
    all: first [destruct R as (E & b & Hb); exact (proj2 (P2 _ _ Hb) E) | destruct R as (_ & E & Nm); exact (P5 Nm E)].
  - destruct e; try contradiction.
    + destruct R as (E & b & Hb). exact (proj1 (P2 _ _ Hb) E).
    + destruct R as (Na & [Hs|Hs] & Ha); apply Na; [exact (U1 _ _ _ Ha Hs)|exact (P3 _ _ _ Hs Ha)].
    + destruct R as (Na & [Hs|Hs] & Ha); apply Na; [exact (U2 _ _ _ Ha Hs)|exact (P4 _ _ _ Hs Ha)].
  - destruct R as (b & Hb & _ & Nn). exact (Nn (P1 _ _ Hb)).
Qed.

(** ** The other calls *)

(** A kit is refused only for lack of room; it is taken if there is room and its
    implementations are about schemata and interfaces it has or the stash knows. *)
Theorem C88_kit : forall (OG : OrdKey GlobalOut) H K s k,
  match snd (stock_body H K (SkKit k) s) with
  | Ok _ => True
  | Err e => e = SkStash StashFull /\ ~ kit_room k (sk_stash s)
  | Panic => ~ self_contained k (sk_stash s)
  end.
Proof.
  intros OG H K s k. cbn [stock_body]. unfold on_stash. pose proof (kit_runs H ac_cons k (sk_stash s)) as R.
  destruct (consume_kit k (sk_stash s)) as [sh [u|e|]]; cbn; [exact Logic.I| |exact R].
  destruct R as [-> R]. split; [reflexivity|exact R].
Qed.
Corollary C88_kit_taken : forall (OG : OrdKey GlobalOut) H K s k,
  kit_room k (sk_stash s) -> self_contained k (sk_stash s) -> snd (stock_body H K (SkKit k) s) = Ok tt.
Proof.
  intros OG H K s k R S. pose proof (C88_kit OG H K s k) as X. destruct (snd _) as [[]|e|]; [reflexivity|tauto|tauto].
Qed.

(** Remembering a seal: never an error, but a panic if there is no room. *)
Theorem C88_seal : forall (OG : OrdKey GlobalOut) H K s x,
  snd (stock_body H K (SkSeal x) s) = if len (st_seals (sk_stash s)) <? U24MAX then Ok tt else Panic.
Proof.
  intros OG H K s x. cbn [stock_body]. unfold bind, on_stash, store_secret_seal, add_secret_seal, bind, get, put, ret, grown, lift, cpush.
  destruct (_ <? U24MAX); reflexivity.
Qed.

(** Updating witnesses never fails, whatever the resolver says. *)
Theorem C88_update : forall (OG : OrdKey GlobalOut) H K s r after,
  snd (stock_body H K (SkUpdate r after) s) = Ok tt.
Proof. reflexivity. Qed.

(** *** Deciding the conditions for given stocks *)

Lemma facts_room_small s l :
  len (mi_op_bundle s) + len (mi_bundle_contract s) + len (mi_bundle_witness s) + len (mi_terminals s) +
  total (fun p : N * ContractIndex => len (ci_outs (snd p)) + total (fun p : OutSeal * list Opout => len (snd p)) (ci_outs (snd p))) (mi_contracts s) +
  total (fun p : N * list WitnessId => len (snd p)) (mi_bundle_witness s) +
  total (fun p : N * list Opout => len (snd p)) (mi_terminals s) + len l <= 254 -> facts_room s l.
Proof.
  intros L.
  assert (O : forall cid, len (outs_known s cid) + total (fun p : OutSeal * list Opout => len (snd p)) (outs_known s cid) <=
    total (fun p : N * ContractIndex => len (ci_outs (snd p)) + total (fun p : OutSeal * list Opout => len (snd p)) (ci_outs (snd p))) (mi_contracts s)).
  { intros cid. unfold outs_known. clear. induction (mi_contracts s) as [|[k g] m IH]; [cbn; unfold len; cbn; lia|]. rewrite total_cons. cbn [mget snd].
    destruct (keqb cid k); lia. }
  constructor; try (unfold U8MAX, U24MAX; intros;
    try match goal with |- context [count ?f l] => pose proof (count_le f l) end).
  - lia.
  - lia.
  - lia.
  - lia.
  - specialize (O cid). lia.
  - pose proof (or_empty_bound (mi_bundle_witness s) bid). unfold omap, oset in *. lia.
  - pose proof (or_empty_bound (mi_terminals s) sec). unfold omap, oset in *. lia.
  - specialize (O cid). pose proof (or_empty_bound (outs_known s cid) out). unfold omap, oset in *. lia.
Qed.

Lemma total_filter {A} (f : A -> N) g l : total f (filter g l) <= total f l.
Proof. induction l as [|a l IH]; [cbn; lia|]. cbn [filter]. destruct (g a); rewrite ?total_cons; lia. Qed.

Lemma moves_room_small {OG : OrdKey GlobalOut} s l :
  total (fun p : N * ContractState => total (fun q : N * MemGlobal => len (mg_known (snd q))) (cs_global (snd p)) +
    len (cs_rights (snd p)) + len (cs_fungibles (snd p)) + len (cs_data (snd p)) + len (cs_attach (snd p))) (ms_contracts s) +
  total (fun m => globals_in (snd m)) l + total (fun m => outputs_in (snd m)) l <= 254 -> moves_room s l.
Proof.
  intros L.
  assert (O : forall cid cs, mget cid (ms_contracts s) = Some cs ->
    total (fun q : N * MemGlobal => len (mg_known (snd q))) (cs_global cs) + len (cs_rights cs) + len (cs_fungibles cs) + len (cs_data cs) + len (cs_attach cs) <=
    total (fun p : N * ContractState => total (fun q : N * MemGlobal => len (mg_known (snd q))) (cs_global (snd p)) +
    len (cs_rights (snd p)) + len (cs_fungibles (snd p)) + len (cs_data (snd p)) + len (cs_attach (snd p))) (ms_contracts s)).
  { clear. intros cid cs. induction (ms_contracts s) as [|[k g] m IH]; [discriminate|]. rewrite total_cons. cbn [mget snd].
    destruct (keqb cid k); intros E; [apply Some_inj in E as <-; lia|apply IH in E; lia]. }
  constructor; unfold U32MAX.
  - intros cid ty. pose proof (total_filter (fun m : N * Operation => globals_in (snd m)) (fun m => fst m =? cid) l) as F. fold (moves_of cid l) in F.
    unfold globals_known. destruct (mget cid (ms_contracts s)) as [cs|] eqn:Ec; [|unfold len at 1; cbn [length]; lia].
    specialize (O cid cs Ec). assert (X : len (match mget ty (cs_global cs) with Some g => mg_known g | None => [] end) <=
        total (fun p : N * MemGlobal => len (mg_known (snd p))) (cs_global cs)); [|unfold omap, oset, Outputs in *; lia].
    clear. induction (cs_global cs) as [|[k g] m IH]; [cbn; unfold len; cbn; lia|]. rewrite total_cons. cbn [mget snd].
    destruct (keqb ty k); lia.
  - intros cid k. pose proof (total_filter (fun m : N * Operation => outputs_in (snd m)) (fun m => fst m =? cid) l) as F. fold (moves_of cid l) in F.
    unfold outputs_known. destruct (mget cid (ms_contracts s)) as [cs|] eqn:Ec; [|unfold len at 1; cbn [length]; lia].
    specialize (O cid cs Ec). destruct k; cbn [cs_outs]; unfold omap, oset, Outputs in *; lia.
Qed.

(** *** Example: the payment of C57, in the stock of C34 and in one which has the whole
    transaction already *)

Definition rc_fascia : Fascia := fx_fascia fx_bundle.
Definition rc_whole : Fascia :=
  {| fa_witness := {| xw_layer := Bitcoin; xw_pub := PwTx {| tx_txid := 10; tx_body := 0 |} |};
     fa_anchor := fa_anchor rc_fascia; fa_bundles := [] |}.
Definition rc_stock {OG : OrdKey GlobalOut} : Stock := cn_stock [] cn_a.
Definition rc_again {OG : OrdKey GlobalOut} : Stock := fst (fascia_body bit_hashes rc_whole yes_witness rc_stock).

Lemma rc_reachable {OG : OrdKey GlobalOut} : reachable bit_hashes cn_merkle rc_stock /\ reachable bit_hashes cn_merkle rc_again.
Proof.
  assert (R : reachable bit_hashes cn_merkle rc_stock) by (unfold rc_stock; apply cn_reachable; vm_compute; reflexivity).
  split; [exact R|]. destruct R as (l & Hl & E). exists (l ++ [SkFascia rc_whole yes_witness]). split.
  - intros c Hc. apply in_app_iff in Hc as [Hc|[<-|[]]]; [apply Hl, Hc|]. intros p [].
  - unfold rc_again. rewrite E. unfold stock_after. rewrite fold_left_app. reflexivity.
Qed.

Lemma rc_recordable {OG : OrdKey GlobalOut} s : s = rc_stock \/ s = rc_again -> recordable bit_hashes yes_witness s rc_fascia.
Proof.
  intros Hs.
  pose (L := fascia_facts bit_hashes rc_fascia).
  assert (B1 : forallb (fun x => match x with FBundle b c => forallb (fun y => match y with FBundle b' c' => implb (b =? b') (c =? c') | _ => true end) L | _ => true end) L = true)
    by (vm_compute; reflexivity).
  assert (B2 : forallb (fun x => match x with FOp b c => forallb (fun y => match y with FOp b' c' => implb (b =? b') (c =? c') | _ => true end) L | _ => true end) L = true)
    by (vm_compute; reflexivity).
  constructor.
  - intros cid b [E|[]]. injection E as <- <-. apply known_subset_ok. vm_compute. reflexivity.
  - intros cid b [E|[]]. injection E as <- <-. destruct Hs as [->| ->]; split; vm_compute; discriminate.
  - intros bid a b Ha Hb. apply fascia_facts_spec in Ha, Hb. rewrite forallb_forall in B1. specialize (B1 _ Ha). cbv beta iota in B1.
    rewrite forallb_forall in B1. specialize (B1 _ Hb). cbv beta iota in B1. rewrite N.eqb_refl in B1. apply N.eqb_eq, B1.
  - intros bid a b Ha Hb. apply fascia_facts_spec in Ha, Hb. rewrite forallb_forall in B2. specialize (B2 _ Ha). cbv beta iota in B2.
    rewrite forallb_forall in B2. specialize (B2 _ Hb). cbv beta iota in B2. rewrite N.eqb_refl in B2. apply N.eqb_eq, B2.
  - discriminate.
  - intros (m & ty & no & a & x & Hm & (ta & Ht & Hn) & Er & No).
    assert (B : forallb (fun m : N * Operation => forallb (fun p : N * TypedAssigns => forallb (fun a => match revealed_seal a with
      | Some x => match assign_output (Some (fascia_witness_id rc_fascia)) x with Some _ => true | None => false end | None => true end)
      (ta_list (snd p))) (op_assigns (snd m))) (moves rc_fascia) = true) by (vm_compute; reflexivity).
    rewrite forallb_forall in B. specialize (B _ Hm). rewrite forallb_forall in B. specialize (B _ Ht). cbn [snd] in B.
    rewrite forallb_forall in B. specialize (B a (nth_error_In _ _ Hn)). rewrite Er in B.
    destruct (assign_output _ x) as [out|] eqn:Eo; [|discriminate]. apply assign_output_spec in Eo. exact (No out Eo).
  - intros (m & ty & vals & cs & Hm & Hg & _).
    assert (B : forallb (fun m : N * Operation => match op_globals (snd m) with [] => true | _ => false end) (moves rc_fascia) = true) by (vm_compute; reflexivity).
    rewrite forallb_forall in B. specialize (B _ Hm). destruct (op_globals (snd m)); [destruct Hg|discriminate].
  - apply facts_room_small. destruct Hs as [->| ->]; vm_compute; discriminate.
  - apply moves_room_small. destruct Hs as [->| ->]; vm_compute; discriminate.
  - unfold witness_space. destruct Hs as [->| ->]; vm_compute; discriminate.
  - destruct Hs as [->| ->]; split; vm_compute; congruence.
Qed.

(** The hypotheses of [C88_recorded_partial] hold. *)
Example C88_recorded_nonvacuous : forall OG : OrdKey GlobalOut,
  collision_free bit_hashes /\ reachable bit_hashes cn_merkle rc_stock /\ stock_call_ok bit_hashes (SkFascia rc_fascia yes_witness) /\
  recordable bit_hashes yes_witness rc_stock rc_fascia /\ unclashing bit_hashes rc_stock rc_fascia /\
  len (fascia_facts bit_hashes rc_fascia) = 5 /\ len (moves rc_fascia) = 1.
Proof.
  intros OG. split; [exact bit_collision_free|]. split; [exact (proj1 rc_reachable)|].
  split. { intros p [<-|[]]. apply bundle_okb_ok. vm_compute. reflexivity. }
  split; [apply rc_recordable; left; reflexivity|]. split; [|split; vm_compute; reflexivity].
  pose (L := fascia_facts bit_hashes rc_fascia). constructor.
  - intros bid alt cid Ha Hs. apply fascia_facts_spec in Ha. apply mget_In in Hs.
    assert (B : forallb (fun p : N * N => forallb (fun x => match x with FBundle b c => implb (b =? fst p) (c =? snd p) | _ => true end) L)
      (mi_bundle_contract (sk_index rc_stock)) = true) by (vm_compute; reflexivity).
    rewrite forallb_forall in B. specialize (B _ Hs). rewrite forallb_forall in B. specialize (B _ Ha). cbn [fst snd] in B.
    rewrite N.eqb_refl in B. cbn in B. apply N.eqb_eq in B. symmetry. exact B.
  - intros opid alt bid Ha Hs. apply fascia_facts_spec in Ha. apply mget_In in Hs.
    assert (B : forallb (fun p : N * N => forallb (fun x => match x with FOp b c => implb (b =? fst p) (c =? snd p) | _ => true end) L)
      (mi_op_bundle (sk_index rc_stock)) = true) by (vm_compute; reflexivity).
    rewrite forallb_forall in B. specialize (B _ Hs). rewrite forallb_forall in B. specialize (B _ Ha). cbn [fst snd] in B.
    rewrite N.eqb_refl in B. cbn in B. apply N.eqb_eq in B. symmetry. exact B.
  - intros old E. assert (X : mget (fascia_witness_id rc_fascia) (st_witnesses (sk_stash rc_stock)) = None) by (vm_compute; reflexivity).
    rewrite X in E. discriminate E.
  - intros old m x y E. assert (X : mget (fascia_witness_id rc_fascia) (st_witnesses (sk_stash rc_stock)) = None) by (vm_compute; reflexivity).
    rewrite X in E. discriminate E.
Qed.

(** Refusals happen: a contract which is not known, a witness the resolver does not know *)
Example C88_reasons_nonvacuous : forall OG : OrdKey GlobalOut,
  snd (fascia_body bit_hashes rc_fascia yes_witness sk_empty) = Err (SkIndex (PIndexModel.ContractAbsent cn_cid)) /\
  snd (fascia_body bit_hashes rc_fascia (fun _ => None) rc_stock) =
    Err (SkState (ResolverFailed (fascia_witness_id rc_fascia))).
Proof. intros OG. split; vm_compute; reflexivity. Qed.

(** Not every fascia which is in order is taken: if the whole transaction is known already, a
    fascia which names it by its id is refused. *)
Theorem C88_recorded_refuted : forall OG : OrdKey GlobalOut, exists H K s f r,
  collision_free H /\ reachable H K s /\ stock_call_ok H (SkFascia f r) /\ recordable H r s f /\
  snd (fascia_body H f r s) = Err (SkStash (StashWitnessMerge (TxidMismatch 10 10))).
Proof.
  intros OG. exists bit_hashes, cn_merkle, rc_again, rc_fascia, yes_witness.
  split; [exact bit_collision_free|]. split; [exact (proj2 rc_reachable)|].
  split. { intros p [<-|[]]. apply bundle_okb_ok. vm_compute. reflexivity. }
  split; [apply rc_recordable; right; reflexivity|]. vm_compute. reflexivity.
Qed.

Print Assumptions fascia_facts_spec.
Print Assumptions C88_reasons.
Print Assumptions C88_recorded_partial.
Print Assumptions C88_kit.
Print Assumptions C88_kit_taken.
Print Assumptions C88_seal.
Print Assumptions C88_update.
Print Assumptions C88_recorded_nonvacuous.
Print Assumptions C88_reasons_nonvacuous.
Print Assumptions C88_recorded_refuted.
