(** * Contract state: src/persistence/state.rs, the in-memory state of
    src/persistence/memory.rs and [OutputAssignment] of src/contract/assignments.rs *)
From Verif Require Import Base StM Core ContainerModel PIndexModel.

(** ** Data *)

(** assignments.rs 94-98 ([OutputAssignment]) *)
Record OutAssign := { oa_opout : Opout; oa_seal : OutSeal; oa_state : RState;
                      oa_witness : option WitnessId }.

(** assignments.rs 100-130: two of them are equal, and one element of a set, when output
    and seal agree; the state and the witness are not looked at.  A set is modelled as a
    map from (output, seal) to (state, witness). *)
Definition OutKey : Type := Opout * OutSeal.
Definition Outputs := omap OutKey (RState * option WitnessId).
Definition out_assign (p : OutKey * (RState * option WitnessId)) : OutAssign :=
  {| oa_opout := fst (fst p); oa_seal := snd (fst p); oa_state := fst (snd p);
     oa_witness := snd (snd p) |}.

(** src/contract/mod.rs 40-45 ([OpWitness]): what publishes an operation *)
Inductive OpWitness :=
| OWGenesis
| OWTransition (w : WitnessId) (ty : N)
| OWExtension (w : WitnessId) (ty : N).

(** src/contract/mod.rs 81-86 ([GlobalOut]): position of a global state value in the history.
    Everything below takes its order as an argument [OG]; most theorems hold for any. *)
Record GlobalOut := { go_op : N; go_nonce : N; go_index : N; go_witness : OpWitness }.
(** contract/mod.rs 32, 72: the derived orders compare the fields as they are written, the
    identifier of the operation first, and the constructors of [OpWitness] as they are written *)
Definition opw_key (o : OpWitness) : N * (option WitnessId * N) :=
  match o with OWGenesis => (0, (None, 0)) | OWTransition w t => (1, (Some w, t)) | OWExtension w t => (2, (Some w, t)) end%N.
Definition go_key (g : GlobalOut) := (go_op g, (go_nonce g, (go_index g, opw_key (go_witness g)))).
Lemma go_key_inj a b : go_key a = go_key b -> a = b.
Proof.
  destruct a as [o n i w], b as [o' n' i' w']. unfold go_key; simpl. intros [= -> -> -> E].
  destruct w, w'; simpl in E; try discriminate; [reflexivity|..]; injection E; intros; subst; reflexivity.
Qed.
Definition OrdGlobalOut : OrdKey GlobalOut := OrdVia go_key go_key_inj.

(** memory.rs 686-689 ([MemGlobalState]) *)
Record MemGlobal := { mg_known : omap GlobalOut N; mg_limit : N }.

(** memory.rs 717-728 ([MemContractState]) *)
Record ContractState := {
  cs_schema : N;
  cs_contract : N;
  cs_global : omap N MemGlobal;
  cs_rights : Outputs;
  cs_fungibles : Outputs;
  cs_data : Outputs;
  cs_attach : Outputs
}.

(** memory.rs 491-498 ([MemState]), without the persistence handle *)
Record MemState := {
  ms_witnesses : omap WitnessId WitnessOrd;
  ms_contracts : omap N ContractState
}.

(** memory.rs 504-510 ([in_memory]) *)
Definition ms_empty : MemState := {| ms_witnesses := []; ms_contracts := [] |}.

(** state.rs 39-80 ([StateError], [StateInconsistency]) and the confinement error *)
Inductive StateError :=
| UnknownContract (cid : N)
| AbsentWitness (w : WitnessId)
| AbsentValidWitness
| ResolverFailed (w : WitnessId)
| StateFull.

Notation SM := (M MemState StateError).

(** [ResolveWitness::resolve_pub_witness_ord]: the answers during one call, [None] where it
    fails *)
Definition Resolver := WitnessId -> option WitnessOrd.

Definition set_witnesses (s : MemState) m : MemState :=
  {| ms_witnesses := m; ms_contracts := ms_contracts s |}.
Definition set_states (s : MemState) m : MemState :=
  {| ms_witnesses := ms_witnesses s; ms_contracts := m |}.

(** ** Writing *)

Section Write.
Context {OG : OrdKey GlobalOut}.

(** memory.rs 731-747 ([MemContractState::new]): a schema has at most 255 global types, so
    [from_iter_checked] does not panic. *)
Definition cs_new (schema : SchemaRec) (cid : N) : ContractState :=
  {| cs_schema := sch_id schema; cs_contract := cid;
     cs_global := mfrom (map (fun p : N * N => (fst p, {| mg_known := []; mg_limit := snd p |}))
                            (sch_globals schema));
     cs_rights := []; cs_fungibles := []; cs_data := []; cs_attach := [] |}.

Definition cs_outs (k : StateKind) (cs : ContractState) : Outputs :=
  match k with
  | KDeclarative => cs_rights cs
  | KFungible => cs_fungibles cs
  | KStructured => cs_data cs
  | KAttachment => cs_attach cs
  end.
Definition cs_set_outs (k : StateKind) (cs : ContractState) (o : Outputs) : ContractState :=
  {| cs_schema := cs_schema cs; cs_contract := cs_contract cs; cs_global := cs_global cs;
     cs_rights := match k with KDeclarative => o | _ => cs_rights cs end;
     cs_fungibles := match k with KFungible => o | _ => cs_fungibles cs end;
     cs_data := match k with KStructured => o | _ => cs_data cs end;
     cs_attach := match k with KAttachment => o | _ => cs_attach cs end |}.
Definition cs_set_global (cs : ContractState) (g : omap N MemGlobal) : ContractState :=
  {| cs_schema := cs_schema cs; cs_contract := cs_contract cs; cs_global := g;
     cs_rights := cs_rights cs; cs_fungibles := cs_fungibles cs; cs_data := cs_data cs;
     cs_attach := cs_attach cs |}.

(** memory.rs 840-842: [LargeOrdSet::push] keeps an element which is already there *)
Definition push_out (key : OutKey) (st : RState) (w : option WitnessId) (outs : Outputs)
  : option Outputs :=
  if (len outs <? U32MAX)%N
  then Some (if mhas key outs then outs else minsert key (st, w) outs)
  else None.

(** memory.rs 814-843 ([add_assignments], [process]).  A panic leaves the contract half
    updated; what is left is not modelled ([result] carries no state on a panic). *)
Definition process (outs : Outputs) (l : list Assign) (opid ty : N) (w : option WitnessId)
  : result StateError Outputs :=
  rfold (fun outs (p : nat * Assign) =>
           match to_revealed (snd p) with
           | None => Ok outs
           | Some (seal, st) =>
               let! out := expect (assign_output w seal) in
               expect (push_out (opout opid ty (fst p), out) st w outs)
           end) outs (enumerate l).

(** memory.rs 845-859 ([add_assignments]): one set for each kind of state *)
Definition add_assignments (cs : ContractState) (w : option WitnessId) (opid : N)
  (a : Assignments) : result StateError ContractState :=
  rfold (fun cs (p : N * TypedAssigns) =>
           let k := ta_kind (snd p) in
           let! outs := process (cs_outs k cs) (ta_list (snd p)) opid (fst p) w in
           Ok (cs_set_outs k cs outs)) cs a.

(** memory.rs 752-768 (first part of [add_operation]): global state *)
Definition add_globals (cs : ContractState) (opid : N) (ow : OpWitness) (o : Operation)
  : result StateError ContractState :=
  rfold (fun cs (p : N * list N) =>
           let! g := expect (mget (fst p) (cs_global cs)) in
           let! known := rfold (fun known (q : nat * N) =>
                            expect (cinsert U32MAX
                              {| go_op := opid; go_nonce := op_nonce o;
                                 go_index := N.of_nat (fst q); go_witness := ow |} (snd q) known))
                          (mg_known g) (enumerate (snd p)) in
           Ok (cs_set_global cs (minsert (fst p) {| mg_known := known; mg_limit := mg_limit g |}
                                   (cs_global cs))))
        cs (op_globals o).

(** memory.rs 749-812 ([add_operation]) *)
Definition op_witness (ow : OpWitness) : option WitnessId :=
  match ow with OWGenesis => None | OWTransition w _ | OWExtension w _ => Some w end.
Definition add_operation (H : Hashes) (cs : ContractState) (ow : OpWitness) (o : Operation)
  : result StateError ContractState :=
  let opid := op_id H o in
  let! cs := add_globals cs opid ow o in
  add_assignments cs (op_witness ow) opid (op_assigns o).

(** memory.rs 1128-1175 ([MemContractWriter]): the writer of contract [cid], which is
    present for as long as the writer exists *)
Definition on_contract (cid : N) (f : ContractState -> result StateError ContractState)
  : SM unit := fun s =>
  match mget cid (ms_contracts s) with
  | None => (s, Err (UnknownContract cid))
  | Some cs =>
      match f cs with
      | Ok cs' => (set_states s (minsert cid cs' (ms_contracts s)), Ok tt)
      | Err e => (s, Err e)
      | Panic => (s, Panic)
      end
  end.
Definition set_witness (w : WitnessId) (ord : WitnessOrd) : SM unit := fun s =>
  match cinsert U32MAX w ord (ms_witnesses s) with
  | Some m => (set_witnesses s m, Ok tt)
  | None => (s, Err StateFull)
  end.
Definition add_genesis (H : Hashes) (cid : N) (g : Operation) : SM unit :=
  on_contract cid (fun cs => add_operation H cs OWGenesis g).
Definition add_transition (H : Hashes) (cid : N) (t : Operation) (w : WitnessId) (ord : WitnessOrd)
  : SM unit :=
  set_witness w ord ;;!
  on_contract cid (fun cs => add_operation H cs (OWTransition w (op_ty t)) t).
Definition add_extension (H : Hashes) (cid : N) (e : Operation) (w : WitnessId) (ord : WitnessOrd)
  : SM unit :=
  set_witness w ord ;;!
  on_contract cid (fun cs => add_operation H cs (OWExtension w (op_ty e)) e).

(** memory.rs 592-624 ([MemState::register_contract]) *)
Definition st_register (H : Hashes) (schema : SchemaRec) (g : Operation) : SM unit :=
  let cid := contract_id H g in
  do! s <- get ;;
  (if mhas cid (ms_contracts s) then ret tt
   else match cinsert U8MAX cid (cs_new schema cid) (ms_contracts s) with
        | Some m => put (set_states s m)
        | None => fail StateFull
        end) ;;!
  add_genesis H cid g.

Definition resolve (r : Resolver) (w : WitnessId) : SM WitnessOrd :=
  lift (ok_or (ResolverFailed w) (r w)).

(** state.rs 157-178 ([update_from_bundle]), memory.rs 626-648 ([update_contract]) *)
Definition update_from_bundle (H : Hashes) (cid : N) (b : Bundle) (w : WitnessId) (r : Resolver)
  : SM unit :=
  do! s <- get ;;
  (if mhas cid (ms_contracts s) then ret tt else fail (UnknownContract cid)) ;;!
  mfor (fun t => do! ord <- resolve r w ;; add_transition H cid t w ord) (mvals (b_known b)).

(** state.rs 201-226 for one extension: the witness and order of the first transition
    spending one of its outputs.  The [used] flag stops the search there, so the branch
    raising the order (lines 218-221) only ever compares the order with itself. *)
Definition spends (t : Operation) (opid : N) : bool :=
  existsb (fun i => (oo_op i =? opid)%N) (op_inputs t).
Definition extension_witness (c : Consignment) (opid : N) : option WitnessId :=
  find_map (fun wb => if existsb (fun t => spends t opid) (wb_known_transitions wb)
                      then Some (wb_id wb) else None) (c_bundles c).

(** state.rs 180-236 ([update_from_consignment]).  The order under which an extension is
    registered is the one resolved for the transition using it; within one call the
    resolver gives one answer for a witness. *)
Definition update_from_consignment (H : Hashes) (c : Consignment) (r : Resolver) : SM unit :=
  let cid := contract_id H (c_genesis c) in
  st_register H (c_schema c) (c_genesis c) ;;!
  mfor (fun wb => mfor (fun t => do! ord <- resolve r (wb_id wb) ;;
                                 add_transition H cid t (wb_id wb) ord)
                       (wb_known_transitions wb))
       (c_bundles c) ;;!
  mfor (fun e => match extension_witness c (op_id H e) with
                 | Some w => do! ord <- resolve r w ;; add_extension H cid e w ord
                 | None => ret tt
                 end)
       (c_extensions c).

(** memory.rs 650-679 ([update_witnesses]).  Counting is modelled together with the map;
    [LargeOrdMap::try_from] of the old keys does not fail.  A failure to store the file is
    part of the stock model. *)
Record UpdateRes := { ur_succeeded : N; ur_failed : oset WitnessId }.
Definition skip_witness (after : N) (ord : WitnessOrd) : bool :=
  match ord with
  | Mined height _ => (height <? N.max 1 after)%N
  | _ => false
  end.
Definition update_witnesses (r : Resolver) (after : N) : SM UpdateRes := fun s =>
  let due := filter (fun p => negb (skip_witness after (snd p))) (ms_witnesses s) in
  let new := map (fun p : WitnessId * WitnessOrd =>
                    (fst p, if skip_witness after (snd p) then snd p
                            else match r (fst p) with Some ord => ord | None => snd p end))
                 (ms_witnesses s) in
  (set_witnesses s new,
   Ok {| ur_succeeded := len due;
         ur_failed := sfrom (filter (fun w => match r w with Some _ => false | None => true end)
                                    (map fst due)) |}).

End Write.

(** ** Reading *)

(** memory.rs 863-866 ([MemContract]) *)
Record MemContract := { mc_filter : omap WitnessId WitnessOrd; mc_state : ContractState }.

Definition by_witness (w : WitnessId) (o : option WitnessId) : bool := keqb o (Some w).

(** memory.rs 551-577 ([contract_state]): the witnesses which something of the contract
    refers to *)
Definition refers (cs : ContractState) (w : WitnessId) : bool :=
  existsb (fun g => existsb (fun o => by_witness w (op_witness (go_witness o)))
                            (mkeys (mg_known g))) (mvals (cs_global cs))
  || existsb (fun a => by_witness w (snd a)) (mvals (cs_rights cs))
  || existsb (fun a => by_witness w (snd a)) (mvals (cs_fungibles cs))
  || existsb (fun a => by_witness w (snd a)) (mvals (cs_data cs))
  || existsb (fun a => by_witness w (snd a)) (mvals (cs_attach cs)).
Definition contract_state (s : MemState) (cid : N) : result StateError MemContract :=
  let! cs := ok_or (UnknownContract cid) (mget cid (ms_contracts s)) in
  Ok {| mc_filter := filter (fun p => refers cs (fst p)) (ms_witnesses s); mc_state := cs |}.

(** assignments.rs 188-195 ([check_witness]) *)
Definition check_witness (filter : omap WitnessId WitnessOrd) (a : OutAssign) : bool :=
  match oa_witness a with
  | None => true
  | Some w => match mget w filter with
              | None => false
              | Some ord => ord_valid ord
              end
  end.

(** memory.rs 1090-1124 ([rights_all], [fungible_all], [data_all], [attach_all]) *)
Definition outs_all (k : StateKind) (c : MemContract) : list OutAssign :=
  filter (check_witness (mc_filter c)) (map out_assign (cs_outs k (mc_state c))).

(** memory.rs 967-1026 ([rights], [fungible], [data], [attach]) *)
Definition at_outpoint (o : Outpoint) (ty : N) (a : OutAssign) : bool :=
  keqb (os_outpoint (oa_seal a)) o && (oo_ty (oa_opout a) =? ty)%N.
Definition outs_at (k : StateKind) (c : MemContract) (o : Outpoint) (ty : N) : list OutAssign :=
  filter (check_witness (mc_filter c))
    (filter (at_outpoint o ty) (map out_assign (cs_outs k (mc_state c)))).
Definition state_value (st : RState) : N :=
  match st with RVoid => 0 | RAmount v _ _ => v | RData v _ => v | RAttach f _ => f end.
Definition mc_rights (c : MemContract) (o : Outpoint) (ty : N) : N :=
  len (outs_at KDeclarative c o ty).
Definition mc_fungible (c : MemContract) (o : Outpoint) (ty : N) : list N :=
  map (fun a => state_value (oa_state a)) (outs_at KFungible c o ty).
Definition mc_data (c : MemContract) (o : Outpoint) (ty : N) : list N :=
  map (fun a => state_value (oa_state a)) (outs_at KStructured c o ty).
Definition mc_attach (c : MemContract) (o : Outpoint) (ty : N) : list N :=
  map (fun a => state_value (oa_state a)) (outs_at KAttachment c o ty).

(** memory.rs 1084-1088 ([witness_ord]) *)
Definition mc_witness_ord (c : MemContract) (w : WitnessId) : option WitnessOrd :=
  mget w (mc_filter c).

(** rgb-core [GlobalOrd]: where a global state value stands in consensus order *)
Inductive GlobalOrd :=
| GOGenesis (index : N)
| GOTransition (opid index ty nonce : N) (ord : WitnessOrd)
| GOExtension (opid index ty nonce : N) (ord : WitnessOrd).

(** memory.rs 938-955: order of one value, nothing if its witness is not known *)
Definition global_ord (filter : omap WitnessId WitnessOrd) (o : GlobalOut) : option GlobalOrd :=
  match go_witness o with
  | OWGenesis => Some (GOGenesis (go_index o))
  | OWTransition w ty =>
      match mget w filter with
      | Some ord => Some (GOTransition (go_op o) (go_index o) ty (go_nonce o) ord)
      | None => None
      end
  | OWExtension w ty =>
      match mget w filter with
      | Some ord => Some (GOExtension (go_op o) (go_index o) ty (go_nonce o) ord)
      | None => None
      end
  end.

(** memory.rs 875-965 ([global]): the values the iterator goes through, newest first;
    [None] is [UnknownGlobalStateType] *)
Definition global_values (c : MemContract) (ty : N) : option (list (GlobalOrd * N)) :=
  match mget ty (cs_global (mc_state c)) with
  | None => None
  | Some g =>
      Some (firstn (N.to_nat (mg_limit g))
              (filter_map (fun p : GlobalOut * N =>
                             match global_ord (mc_filter c) (fst p) with
                             | Some ord => Some (ord, snd p)
                             | None => None
                             end) (rev (mg_known g))))
  end.

(** memory.rs 881-923: the iterator; [gi_src] stands for what the constructor gives anew *)
Record GIter := { gi_src : list (GlobalOrd * N); gi_iter : list (GlobalOrd * N);
                  gi_last : option (GlobalOrd * N); gi_depth : N }.
(** memory.rs 957-963 *)
Definition gi_new (l : list (GlobalOrd * N)) : GIter :=
  {| gi_src := l; gi_iter := l; gi_last := None; gi_depth := 0 |}.
(** memory.rs 897-903 ([size]): counts what was left of the iterator before the swap, and
    leaves a new one *)
Definition gi_size (i : GIter) : GIter * N :=
  ({| gi_src := gi_src i; gi_iter := gi_src i; gi_last := gi_last i; gi_depth := gi_depth i |},
   len (gi_iter i)).
(** memory.rs 904-909 ([prev], [last]).  [depth] is a 24-bit number in Rust; the model does
    not bound it. *)
Definition gi_prev (i : GIter) : GIter * option (GlobalOrd * N) :=
  let l := match gi_iter i with [] => None | a :: _ => Some a end in
  ({| gi_src := gi_src i; gi_iter := tl (gi_iter i); gi_last := l; gi_depth := gi_depth i + 1 |}, l).
(** memory.rs 910-923 ([reset]): skips [depth - depth] going forward, and skips from what
    was left of the old iterator going back *)
Definition gi_reset (depth : N) (i : GIter) : GIter :=
  match N.compare (gi_depth i) depth with
  | Lt => {| gi_src := gi_src i; gi_iter := skipn (N.to_nat (depth - depth)) (gi_iter i);
             gi_last := gi_last i; gi_depth := gi_depth i |}
  | Eq => i
  | Gt => {| gi_src := gi_src i; gi_iter := skipn (N.to_nat depth) (gi_iter i);
             gi_last := gi_last i; gi_depth := gi_depth i |}
  end.

(** memory.rs 579-585 ([is_valid_witness]) *)
Definition is_valid_witness (s : MemState) (w : WitnessId) : result StateError bool :=
  let! ord := ok_or (AbsentWitness w) (mget w (ms_witnesses s)) in Ok (ord_valid ord).

(** state.rs 140-155 ([select_valid_witness]) *)
Fixpoint select_valid_witness (s : MemState) (ws : list WitnessId) : result StateError WitnessId :=
  match ws with
  | [] => Err AbsentValidWitness
  | w :: ws' =>
      let! valid := is_valid_witness s w in
      if valid then Ok w else select_valid_witness s ws'
  end.

(** ** Histories *)

Inductive StateCall :=
| StConsignment (c : Consignment) (r : Resolver)
| StBundle (cid : N) (b : Bundle) (w : WitnessId) (r : Resolver)
| StUpdate (r : Resolver) (after : N).

Section Calls.
Context {OG : OrdKey GlobalOut}.
Definition state_call (H : Hashes) (c : StateCall) : SM unit :=
  match c with
  | StConsignment c r => update_from_consignment H c r
  | StBundle cid b w r => update_from_bundle H cid b w r
  | StUpdate r after => do! _ <- update_witnesses r after ;; ret tt
  end.
Definition state_calls (H : Hashes) (l : list StateCall) (s : MemState) : MemState :=
  fold_left (fun s c => fst (state_call H c s)) l s.
End Calls.
