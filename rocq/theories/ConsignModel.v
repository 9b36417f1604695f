(** * Exporting: consignments and kits made from a stock (src/persistence/stock.rs) *)
From Verif Require Import Base StM Core ContainerModel PIndexModel StateModel StashModel StockModel.
Local Open Scope N_scope.

(** stock.rs 158-210 ([ConsignError]) and the errors of the three parts; of
    [StashInconsistency] the variants which [client_bundle] reports (stash.rs 103-160), and
    the two errors of [extract] *)
Inductive ConsignError :=
| CsStash (e : StashError)
| CsState (e : StateError)
| CsIndex (e : IndexError)
| TooManySignatures
| TooManySupplements
| TooManyTerminals
| TooManyBundles
| CsTransition (e : RevealError)
| CsDouble (e : DoubleError)
| CsConcealed (bid opid : N)
| BundleMissedInAnchors (bid cid : N)
| WitnessMissesContract (w : WitnessId) (bid cid : N)
| TypeAbsent (id : N)
| TooManyLibs (schema : N).

Definition of_stash {A} : result StashError A -> result ConsignError A := rmap_err CsStash.
Definition of_state {A} : result StateError A -> result ConsignError A := rmap_err CsState.
Definition of_index {A} : result IndexError A -> result ConsignError A := rmap_err CsIndex.

(** stock.rs 1357-1364 ([transition]) *)
Definition transition (s : Stock) (opid : N) : result ConsignError Operation :=
  let! bid := of_index (bundle_id_for_op (sk_index s) opid) in
  let! b := of_stash (stash_bundle (sk_stash s) bid) in
  ok_or (CsConcealed bid opid) (mget opid (b_known b)).

(** stock.rs 1366-1400 ([client_bundle]) *)
Definition client_bundle (K : Merkle) (s : Stock) (bid : N) : result ConsignError ClientBundle :=
  let! info := of_index (bundle_info (sk_index s) bid) in
  let! b := of_stash (stash_bundle (sk_stash s) bid) in
  let! w := of_state (select_valid_witness (sk_state s) (fst info)) in
  let! sw := of_stash (stash_witness (sk_stash s) w) in
  let! a := match b_method b, sw_anchors sw with
            | TapretFirst, ASTapret t | TapretFirst, ASDouble t _ => Ok (t, TapretFirst)
            | OpretFirst, ASOpret o | OpretFirst, ASDouble _ o => Ok (o, OpretFirst)
            | _, _ => Err (BundleMissedInAnchors bid (snd info))
            end in
  let! proof := ok_or (WitnessMissesContract w bid (snd info))
                  (mk_proof K (an_root (fst a)) (an_known (fst a)) (snd info)) in
  client_bundle_new proof {| dp_method := snd a; dp_data := an_dbc (fst a) |} b.

(** rgb-core [TypedAssigns::to_confidential_seals], for one assignment *)
Definition conceal_seal (H : Hashes) (a : Assign) : N :=
  match a with
  | Confidential s _ | ConfidentialSeal s _ => s
  | ConfidentialState s _ | Revealed s _ => h_seal H s
  end.

(** The assignments of a transition which are to the secret seal *)
Definition hits (H : Hashes) (secret : option N) (t : Operation) : list N :=
  match secret with
  | None => []
  | Some x => filter (N.eqb x) (map (conceal_seal H) (flat_map ta_list (mvals (op_assigns t))))
  end.

(** What [consign] collects: transitions, terminals, anchored bundles *)
Record Collected := {
  cl_transitions : omap N Operation;
  cl_terminals : omap N N;
  cl_bundles : omap N ClientBundle
}.

(** stock.rs 780-789: [assert_eq!] panics when the bundle is a terminal already *)
Definition add_terminals (bid : N) (secrets : list N) (m : omap N N) : result ConsignError (omap N N) :=
  rfold (fun m x => if mhas bid m then Panic else Ok (minsert bid x m)) m secrets.

(** stock.rs 770-795 *)
Definition start_step (H : Hashes) (K : Merkle) (s : Stock) (cid : N) (secret : option N)
  (acc : Collected) (o : Opout) : result ConsignError Collected :=
  if oo_op o =? cid then Ok acc
  else
    let! t := transition s (oo_op o) in
    let! bid := of_index (bundle_id_for_op (sk_index s) (op_id H t)) in
    let! terms := add_terminals bid (hits H secret t) (cl_terminals acc) in
    let! bundles := if mhas bid (cl_bundles acc) then Ok (cl_bundles acc)
                    else let! cb := client_bundle K s bid in Ok (minsert bid cb (cl_bundles acc)) in
    Ok {| cl_transitions := minsert (oo_op o) t (cl_transitions acc);
          cl_terminals := terms; cl_bundles := bundles |}.

(** The operations whose outputs an operation spends *)
Definition parents (t : Operation) : list N := map oo_op (op_inputs t).

(** stock.rs 803-815, one round for an id which is not the genesis.  [or_insert] takes a
    client bundle also when it is not needed. *)
Definition walk_step (H : Hashes) (K : Merkle) (s : Stock) (id : N) (bundles : omap N ClientBundle)
  : result ConsignError (list N * omap N ClientBundle) :=
  let! t := transition s id in
  let! bid := of_index (bundle_id_for_op (sk_index s) (op_id H t)) in
  let! fresh := client_bundle K s bid in
  let entry := match mget bid bundles with Some cb => cb | None => fresh end in
  let! cb := rmap_err CsTransition (reveal_transition H entry t) in
  Ok (parents t, minsert bid (snd cb) bundles).

(** stock.rs 797-815: the loop.  [ids] is a stack, its top is the head of the list: a [Vec]
    is extended and popped at its end.  [None]: the loop is still running after [fuel]
    rounds. *)
Fixpoint walk (H : Hashes) (K : Merkle) (s : Stock) (cid : N) (fuel : nat) (ids : list N)
  (bundles : omap N ClientBundle) : option (result ConsignError (omap N ClientBundle)) :=
  match ids with
  | [] => Some (Ok bundles)
  | id :: rest =>
      match fuel with
      | O => None
      | S n =>
          if id =? cid then walk H K s cid n rest bundles
          else match walk_step H K s id bundles with
               | Ok (ps, bundles') => walk H K s cid n (rev ps ++ rest) bundles'
               | Err e => Some (Err e)
               | Panic => Some Panic
               end
      end
  end.

(** Signatures and supplements are added where there are any (stock.rs 745-760, 817-857). *)
Definition add_sig (s : MemStash) (c : ContentId) (m : omap ContentId (omap N N)) :=
  match sigs_for s c with Some x => minsert c x m | None => m end.
Definition add_suppl (s : MemStash) (c : ContentId) (m : oset SupplRec) : oset SupplRec :=
  match stash_supplement s c with Some x => sinsert x m | None => m end.

(** The schema id of a genesis ([Genesis::schema_id]): [Genesis] has no type, the model keeps
    its schema id in that field *)
Definition g_schema (g : Operation) : N := op_ty g.

(** stock.rs 829-858: for each implementation its interface, by name.  The result is a
    [BTreeMap] by interface; here it is listed by name. *)
Definition ifaces_of (s : MemStash) (impls : omap N ImplRec) : result ConsignError (list (IfaceRec * ImplRec)) :=
  rfold (fun acc p => let! i := of_stash (iface_by_name s (fst p)) in Ok (acc ++ [(i, snd p)])) [] impls.

(** Contents whose signatures and supplements go with a contract *)
Definition contents_of (cid : N) (schema : N) (ifaces : list (IfaceRec * ImplRec)) : list ContentId :=
  (TagGenesis, cid) :: (TagSchema, schema) ::
  flat_map (fun p => [(TagIface, if_id (fst p)); (TagIfaceImpl, im_id (snd p))]) ifaces.

(** stash.rs 295-318 ([extract]).  Of the type system only the types asked for are taken;
    in the code also those they refer to. *)
Definition extract (s : MemStash) (schema : SchemaRec) (ifaces : list IfaceRec)
  : result ConsignError (omap N N * omap N N) :=
  let! types := rfold (fun m id => let! t := ok_or (TypeAbsent id) (mget id (st_types s)) in Ok (minsert id t m))
                  [] (sch_types schema ++ flat_map if_types ifaces) in
  let! libs := rfold (fun m id => let! l := of_stash (stash_lib s id) in Ok (minsert id l m)) [] (sch_libs schema) in
  if len libs <=? U8MAX then Ok (types, libs) else Err (TooManyLibs (sch_id schema)).

(** stock.rs 860-871: bundles by witness *)
Definition group_step (K : Merkle) (H : Hashes) (s : Stock) (acc : omap WitnessId WitnessBundle)
  (cb : ClientBundle) : result ConsignError (omap WitnessId WitnessBundle) :=
  let! info := of_index (bundle_info (sk_index s) (bundle_id H (cb_bundle cb))) in
  let! w := of_state (select_valid_witness (sk_state s) (fst info)) in
  let! sw := of_stash (stash_witness (sk_stash s) w) in
  let! wb := match mget w acc with
             | Some b => rmap_err CsDouble (into_double b cb)
             | None => wb_with (sw_public sw) cb
             end in
  Ok (minsert w wb acc).

(** stock.rs 763-768: the outputs to start from *)
Definition start_outs (s : Stock) (cid : N) (outputs : list OutSeal) (secret : option N)
  : result ConsignError (oset Opout) :=
  let! a := of_index (public_opouts (sk_index s) cid) in
  let! b := of_index (opouts_by_outputs (sk_index s) cid (map os_outpoint outputs)) in
  let c := opouts_by_terminals (sk_index s) (match secret with Some x => [x] | None => [] end) in
  Ok (fold_left (fun acc x => sinsert x acc) (b ++ c) a).

(** stock.rs 770-795 *)
Definition collect (H : Hashes) (K : Merkle) (s : Stock) (cid : N) (outputs : list OutSeal) (secret : option N)
  : result ConsignError Collected :=
  let! outs := start_outs s cid outputs secret in
  rfold (start_step H K s cid secret) {| cl_transitions := []; cl_terminals := []; cl_bundles := [] |} outs.

(** stock.rs 817-902: the rest, once the bundles are known *)
Definition assemble (H : Hashes) (K : Merkle) (s : Stock) (transfer : bool) (cid : N)
  (terminals : omap N N) (anchored : omap N ClientBundle) : result ConsignError Consignment :=
  let! genesis := of_stash (stash_genesis (sk_stash s) cid) in
  let! si := of_stash (stash_schema (sk_stash s) (g_schema genesis)) in
  let! ifaces := ifaces_of (sk_stash s) (si_impls si) in
  let contents := contents_of cid (g_schema genesis) ifaces in
  let sigs := fold_left (fun m c => add_sig (sk_stash s) c m) contents [] in
  let suppl := fold_left (fun m c => add_suppl (sk_stash s) c m) contents [] in
  let! bundles := rfold (group_step K H s) [] (mvals anchored) in
  if negb (len bundles <=? U32MAX) then Err TooManyBundles
  else if negb (len terminals <=? U16MAX) then Err TooManyTerminals
  else
    let! ex := extract (sk_stash s) (si_schema si) (map fst ifaces) in
    if negb (len suppl <=? U8MAX) then Err TooManySupplements
    else if negb (len sigs <=? U8MAX) then Err TooManySignatures
    else Ok {| c_transfer := transfer; c_terminals := terminals; c_genesis := genesis; c_extensions := [];
               c_bundles := mvals bundles; c_schema := si_schema si; c_ifaces := ifaces;
               c_supplements := suppl; c_types := fst ex; c_scripts := snd ex; c_attachments := [];
               c_signatures := sigs |}.

(** stock.rs 797-801: the stack at the start of the loop *)
Definition start_ids (ts : omap N Operation) : list N := rev (flat_map parents (mvals ts)).

(** stock.rs 737-902 ([consign]), for [export_contract] (719-725) and [transfer] (727-735).
    [None]: still running after [fuel] rounds of the loop. *)
Definition consign (H : Hashes) (K : Merkle) (fuel : nat) (s : Stock) (transfer : bool) (cid : N)
  (outputs : list OutSeal) (secret : option N) : option (result ConsignError Consignment) :=
  match collect H K s cid outputs secret with
  | Ok co =>
      match walk H K s cid fuel (start_ids (cl_transitions co)) (cl_bundles co) with
      | Some (Ok bundles) => Some (assemble H K s transfer cid (cl_terminals co) bundles)
      | Some (Err e) => Some (Err e)
      | Some Panic => Some Panic
      | None => None
      end
  | Err e => Some (Err e)
  | Panic => Some Panic
  end.

(** stock.rs 698-717 ([export_schema]): the lists of a kit are sets, by id *)
Definition export_schema (s : MemStash) (schema : N) : result ConsignError Kit :=
  let! si := of_stash (stash_schema s schema) in
  let! ifaces := ifaces_of s (si_impls si) in
  let! ex := extract s (si_schema si) (map fst ifaces) in
  Ok {| k_ifaces := set_by if_id (map fst ifaces); k_schemata := [si_schema si];
        k_impls := set_by im_id (mvals (si_impls si)); k_suppl := []; k_types := fst ex;
        k_scripts := snd ex; k_signatures := [] |}.
