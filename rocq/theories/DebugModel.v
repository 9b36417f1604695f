(** * A debug build: the functions with [debug_assert]s, as a build with debug assertions runs them

    The other model files are about release builds, where these assertions are absent. *)
From Verif Require Import Base StM Core MergeModel ContainerModel PIndexModel StateModel StashModel StockModel.
From Verif Require Import InvoiceModel IfaceModel BuilderModel SupplModel ConsignModel ComposeModel.
Local Open Scope N_scope.

(** ** Merging: src/contract/merge_reveal.rs *)

(** The concealed form is a pair of commitments. *)
Definition commitments (H : Hashes) (a : Assign) : N * N :=
  match conceal H a with
  | Confidential s st => (s, st)
  | _ => (0, 0)
  end.

(** 94-95 ([Assign::merge_reveal]): the concealed forms are equal.  The assertions about locks
    (111, 128) are left out with the locks. *)
Definition merge_assign_dbg (H : Hashes) (a b : Assign) : result MergeError Assign :=
  if keqb (commitments H a) (commitments H b) then Ok (merge_assign a b) else Panic.

(** 150-198 *)
Definition merge_typed_dbg (H : Hashes) (a b : TypedAssigns) : result MergeError TypedAssigns :=
  if kind_eqb (ta_kind a) (ta_kind b)
  then let! l := rfold (fun acc p => let! x := merge_assign_dbg H (fst p) (snd p) in Ok (acc ++ [x]))
                   [] (combine (ta_list a) (ta_list b)) in
       Ok {| ta_kind := ta_kind a; ta_list := l |}
  else Panic.

(** 200-215: the types are equal (208) *)
Definition merge_assigns_dbg (H : Hashes) (a b : Assignments) : result MergeError Assignments :=
  rfold (fun acc p =>
           if fst (fst p) =? fst (snd p)
           then let! t := merge_typed_dbg H (snd (fst p)) (snd (snd p)) in
                Ok (minsert (fst (fst p)) t acc)
           else Panic)
        [] (combine a b).

(** 257-294 *)
Definition merge_op_dbg (H : Hashes) (a b : Operation) : result MergeError Operation :=
  if op_id H a =? op_id H b
  then let! asg := merge_assigns_dbg H (op_assigns a) (op_assigns b) in Ok (set_assigns a asg)
  else Err (OperationMismatch (op_id H a) (op_id H b)).

(** 217-235: the ids of the bundles are equal (219) *)
Definition merge_bundle_dbg (H : Hashes) (a b : Bundle) : result MergeError Bundle :=
  if bundle_id H a =? bundle_id H b
  then
    let! known :=
      rfold (fun known p =>
               match mget (fst p) known with
               | Some t => let! t' := merge_op_dbg H t (snd p) in
                           Ok (minsert (fst p) t' (mremove (fst p) known))
               | None => Ok known
               end)
            (b_known a) (b_known b) in
    if len (b_inputs a) <? len known
    then Err InsufficientInputs
    else Ok {| b_method := b_method a; b_inputs := b_inputs a; b_known := known |}
  else Panic.

(** ** The stash: src/persistence/stash.rs *)

(** 497-501 *)
Definition consume_genesis_dbg (H : Hashes) (g : Operation) : STM unit :=
  do! s <- get ;;
  do! g' <- (match mget (contract_id H g) (st_geneses s) with
             | Some old => lift (rmap_err StashMerge (merge_op_dbg H old g))
             | None => ret g
             end) ;;
  replace_genesis H g' ;;! ret tt.

(** 503-511 *)
Definition consume_extension_dbg (H : Hashes) (e : Operation) : STM unit :=
  do! s <- get ;;
  do! e' <- (match mget (op_id H e) (st_extensions s) with
             | Some old => lift (rmap_err StashMerge (merge_op_dbg H old e))
             | None => ret e
             end) ;;
  replace_extension H e' ;;! ret tt.

(** 662-673 *)
Definition consume_bundle_dbg (H : Hashes) (b : Bundle) : STM bool :=
  do! s <- get ;;
  do! b' <- (match mget (bundle_id H b) (st_bundles s) with
             | Some old => lift (rmap_err StashMerge (merge_bundle_dbg H old b))
             | None => ret b
             end) ;;
  replace_bundle H b'.

(** 562-571 *)
Definition anchor_bundle_dbg (H : Hashes) (K : Merkle) (cid : N) (p : EAnchor * Bundle)
  : STM (CloseMethod * Anchor) :=
  let bid := bundle_id H (snd p) in
  consume_bundle_dbg H (snd p) ;;!
  do! root <- lift (ok_or StashMerkle (mk_with K (ea_mpc (fst p)) cid bid)) ;;
  ret (dp_method (ea_dbc (fst p)),
       {| an_root := root; an_known := [(cid, bid)]; an_dbc := dp_data (ea_dbc (fst p)) |}).
Fixpoint anchor_all_dbg (H : Hashes) (K : Merkle) (cid : N) (l : list (EAnchor * Bundle))
  : STM (list (CloseMethod * Anchor)) :=
  match l with
  | [] => ret []
  | p :: l' => do! a <- anchor_bundle_dbg H K cid p ;;
               do! r <- anchor_all_dbg H K cid l' ;; ret (a :: r)
  end.

(** 548-645 *)
Definition consume_witness_bundle_dbg (H : Hashes) (K : Merkle) (cid : N) (w : WitnessBundle) : STM unit :=
  do! l <- anchor_all_dbg H K cid (anchored_iter (wb_bundles w)) ;;
  do! a <- anchors_of l ;;
  consume_witness {| sw_public := wb_witness w; sw_anchors := a |} ;;! ret tt.

(** 491-546 *)
Definition consume_consignment_dbg (H : Hashes) (K : Merkle) (c : Consignment) : STM unit :=
  let cid := contract_id H (c_genesis c) in
  consume_genesis_dbg H (c_genesis c) ;;!
  mfor (consume_extension_dbg H) (c_extensions c) ;;!
  mfor (consume_witness_bundle_dbg H K cid) (c_bundles c) ;;!
  mfor (fun p => replace_attachment (fst p) (snd p) ;;! ret tt) (c_attachments c) ;;!
  consume_kit (kit_of c).

(** ** The state: src/persistence/memory.rs, src/contract/assignments.rs *)

(** Derived equality of revealed state *)
Definition rstate_key (st : RState) : N * (N * (N * N)) :=
  match st with
  | RVoid => (0, (0, (0, 0)))
  | RAmount v b t => (1, (v, (b, t)))
  | RData v salt => (2, (v, (salt, 0)))
  | RAttach f salt => (3, (f, (salt, 0)))
  end.
Definition rstate_eqb (a b : RState) : bool := keqb (rstate_key a) (rstate_key b).

(** memory.rs 840-842 with assignments.rs 101-114: an allocation is compared with the one
    which has the same output and seal, if there is one, and the states are equal (110) *)
Definition push_out_dbg (key : OutKey) (st : RState) (w : option WitnessId) (outs : Outputs) : option Outputs :=
  if len outs <? U32MAX
  then match mget key outs with
       | Some old => if rstate_eqb (fst old) st then Some outs else None
       | None => Some (minsert key (st, w) outs)
       end
  else None.

Section Write.
Context {OG : OrdKey GlobalOut}.

(** 814-843 *)
Definition process_dbg (outs : Outputs) (l : list Assign) (opid ty : N) (w : option WitnessId)
  : result StateError Outputs :=
  rfold (fun outs (p : nat * Assign) =>
           match to_revealed (snd p) with
           | None => Ok outs
           | Some (seal, st) =>
               let! out := expect (assign_output w seal) in
               expect (push_out_dbg (opout opid ty (fst p), out) st w outs)
           end) outs (enumerate l).

(** 845-859 *)
Definition add_assignments_dbg (cs : ContractState) (w : option WitnessId) (opid : N)
  (a : Assignments) : result StateError ContractState :=
  rfold (fun cs (p : N * TypedAssigns) =>
           let k := ta_kind (snd p) in
           let! outs := process_dbg (cs_outs k cs) (ta_list (snd p)) opid (fst p) w in
           Ok (cs_set_outs k cs outs)) cs a.

(** 749-812 *)
Definition add_operation_dbg (H : Hashes) (cs : ContractState) (ow : OpWitness) (o : Operation)
  : result StateError ContractState :=
  let opid := op_id H o in
  let! cs := add_globals cs opid ow o in
  add_assignments_dbg cs (op_witness ow) opid (op_assigns o).

(** 1128-1175 *)
Definition add_genesis_dbg (H : Hashes) (cid : N) (g : Operation) : M MemState StateError unit :=
  on_contract cid (fun cs => add_operation_dbg H cs OWGenesis g).
Definition add_transition_dbg (H : Hashes) (cid : N) (t : Operation) (w : WitnessId) (ord : WitnessOrd)
  : M MemState StateError unit :=
  set_witness w ord ;;!
  on_contract cid (fun cs => add_operation_dbg H cs (OWTransition w (op_ty t)) t).
Definition add_extension_dbg (H : Hashes) (cid : N) (e : Operation) (w : WitnessId) (ord : WitnessOrd)
  : M MemState StateError unit :=
  set_witness w ord ;;!
  on_contract cid (fun cs => add_operation_dbg H cs (OWExtension w (op_ty e)) e).

(** 592-624 *)
Definition st_register_dbg (H : Hashes) (schema : SchemaRec) (g : Operation) : M MemState StateError unit :=
  let cid := contract_id H g in
  do! s <- get ;;
  (if mhas cid (ms_contracts s) then ret tt
   else match cinsert U8MAX cid (cs_new schema cid) (ms_contracts s) with
        | Some m => put (set_states s m)
        | None => fail StateFull
        end) ;;!
  add_genesis_dbg H cid g.

(** state.rs 157-178 *)
Definition update_from_bundle_dbg (H : Hashes) (cid : N) (b : Bundle) (w : WitnessId) (r : Resolver)
  : M MemState StateError unit :=
  do! s <- get ;;
  (if mhas cid (ms_contracts s) then ret tt else fail (UnknownContract cid)) ;;!
  mfor (fun t => do! ord <- resolve r w ;; add_transition_dbg H cid t w ord) (mvals (b_known b)).

(** state.rs 180-236 *)
Definition update_from_consignment_dbg (H : Hashes) (c : Consignment) (r : Resolver) : M MemState StateError unit :=
  let cid := contract_id H (c_genesis c) in
  st_register_dbg H (c_schema c) (c_genesis c) ;;!
  mfor (fun wb => mfor (fun t => do! ord <- resolve r (wb_id wb) ;;
                                 add_transition_dbg H cid t (wb_id wb) ord)
                       (wb_known_transitions wb))
       (c_bundles c) ;;!
  mfor (fun e => match extension_witness c (op_id H e) with
                 | Some w => do! ord <- resolve r w ;; add_extension_dbg H cid e w ord
                 | None => ret tt
                 end)
       (c_extensions c).

(** ** The stock: src/persistence/stock.rs *)

(** 1302-1315 *)
Definition accept_body_dbg (H : Hashes) (K : Merkle) (c : Consignment) (r : Resolver) : KM unit :=
  do! s <- get ;;
  do! c' <- lift (rmap_err SkStash (resolve_secrets H (sk_stash s) c)) ;;
  on_state (update_from_consignment_dbg H c' r) ;;!
  on_index (pindex_consignment H c') ;;!
  on_stash (consume_consignment_dbg H K c').

(** 1328-1355 *)
Definition fascia_bundle_dbg (H : Hashes) (w : WitnessId) (r : Resolver) (p : N * Bundle) : KM unit :=
  (if known_subset (snd p) then ret tt else fail (InvalidBundle (fst p) (bundle_id H (snd p)))) ;;!
  on_index (pindex_bundle H (fst p) (snd p) w) ;;!
  on_state (update_from_bundle_dbg H (fst p) (snd p) w r) ;;!
  on_stash (consume_bundle_dbg H (snd p)) ;;! ret tt.
Definition fascia_body_dbg (H : Hashes) (f : Fascia) (r : Resolver) : KM unit :=
  on_stash (consume_witness {| sw_public := fa_witness f; sw_anchors := fa_anchor f |}) ;;!
  mfor (fascia_bundle_dbg H (fascia_witness_id f) r) (fascia_bundles f).

(** The calls of [StockModel.stock_body] *)
Definition stock_body_dbg (H : Hashes) (K : Merkle) (c : StockCall) : KM unit :=
  match c with
  | SkAccept c r => accept_body_dbg H K c r
  | SkFascia f r => fascia_body_dbg H f r
  | SkKit k => on_stash (consume_kit k)
  | SkSeal x => on_stash (store_secret_seal x) ;;! ret tt
  | SkUpdate r after => on_state (update_witnesses r after) ;;! ret tt
  | SkStore => ret tt
  end.
(** What the calls return, one after another, and the stock in the end; [body] is
    [stock_body] or [stock_body_dbg] *)
Fixpoint run (body : StockCall -> KM unit) (l : list StockCall) (s : Stock) : list (result StockError unit) * Stock :=
  match l with
  | [] => ([], s)
  | c :: l' => let (s', r) := body c s in let (rs, s'') := run body l' s' in (r :: rs, s'')
  end.
End Write.

(** ** Composing: stock.rs 932-1247.  Sums of amounts are checked ([wrap] is [false]), and a
    transition never has inputs of two methods (1207, 1226, 1233). *)
Section Compose.
Context (H : Hashes) (D : Defs) (P : Pedersen) (s : Stock) (ch : Choices) (od : Orders).

Definition finish_dbg (b : TrBuilder) (outputs : list OutSeal) : result ComposeError TransitionInfo :=
  let! t := co_builder (complete_transition P (or_rights od) b) in
  match transition_info_new H t outputs with
  | Ok i => Ok i
  | Err (TiTooMany _) => Err TooManyInputs
  | Err (TiMethodDivergence _) => Panic
  | Panic => Panic
  end.

(** 1181-1220 *)
Definition blank_for_dbg (method : CloseMethod) (layer : Layer1) (iface : N) (p : N * Spending)
  : result ComposeError (Dichotomy TransitionInfo) :=
  let (id, m) := p in
  let! tapret := blank_builder D (sk_stash s) id iface in
  let! opret := blank_builder D (sk_stash s) id iface in
  let! w := rfold (blank_spend D s ch (fst tapret) method layer id) (snd tapret, snd opret) (listed od id m) in
  let! infos := rfold (fun acc q =>
                  let (b, outputs) := q : TrBuilder * list OutSeal in
                  if has_inputs b then let! i := finish_dbg b outputs in Ok (acc ++ [i]) else Ok acc)
                  [] [(fst w, outputs_with od id m (of_method TapretFirst)); (snd w, outputs_with od id m (of_method OpretFirst))] in
  di_from_iter infos.
Definition blanks_for_dbg (method : CloseMethod) (layer : Layer1) (iface : N) (m : list (N * Spending))
  : result ComposeError (list (Dichotomy TransitionInfo)) :=
  rfold (fun acc p => let! d := blank_for_dbg method layer iface p in ok_or TooManyBlanks (cpush_back (U24MAX - 1) d acc)) [] m.

Definition compose_dbg (inv : RgbInvoice) (prev : list OutSeal) (method : CloseMethod) (vout : option N) (priority : N) (now : Z)
  : result ComposeError Batch :=
  let layer := layer1 (chain_network (beneficiary inv)) in
  let outpoints := map os_outpoint prev in
  if match expiry inv with Some t => (t <? now)%Z | None => false end then Err InvoiceExpired
  else
    let! cid := ok_or NoContract (InvoiceModel.contract inv) in
    let! iface := rmap (df_name D) (ok_or NoIface (InvoiceModel.iface inv)) in
    let! main := transition_builder D (sk_stash s) cid iface (option_map (df_name D) (InvoiceModel.operation inv)) in
    let! a := payment_type D (fst main) (snd main) (InvoiceModel.assignment inv) in
    let! alt := transition_builder D (sk_stash s) cid iface (option_map (df_name D) (InvoiceModel.operation inv)) in
    let! ben := beneficiary_seal D ch layer cid a (xcn_into_inner (beneficiary inv)) vout in
    let X := fst main in
    let lookup := match owned_state inv with ISData al => Some (df_alloc D al) | _ => None end in
    let! m := contract_assignments_for (sk_state s) cid outpoints in
    let! w := rfold (spend D false s ch X method layer cid a lookup)
                {| wk_main := snd main; wk_alt := snd alt; wk_sum := 0; wk_sum_alt := 0; wk_data := []; wk_data_main := true |}
                (listed od cid m) in
    let! w := pay D false s ch X method layer cid a ben (owned_state inv) w in
    let! spent := spent_state s cid outpoints in
    let! blanks := blanks_for_dbg method layer iface (or_contracts od spent) in
    let main_inputs := outputs_with od cid m (of_method method) in
    let alt_inputs := outputs_with od cid m (fun x => negb (of_method method x)) in
    let! builders :=
      match has_inputs (wk_main w), has_inputs (wk_alt w) with
      | true, true => Ok (wk_main w, main_inputs, Some (wk_alt w, alt_inputs))
      | true, false => Ok (wk_main w, main_inputs, None)
      | false, true => Ok (wk_alt w, alt_inputs, None)
      | false, false => Err InsufficientState
      end in
    let! first := finish_dbg (fst (fst builders)) (snd (fst builders)) in
    let! second := match snd builders with
                   | Some (b, outputs) => rmap Some (finish_dbg b outputs)
                   | None => Ok None
                   end in
    Ok (set_priority priority {| ba_main := {| di_first := first; di_second := second |}; ba_blanks := blanks |}).
End Compose.
