(** * Assignment filters and contract queries: src/interface/filter.rs,
    src/interface/contract.rs *)
From Verif Require Import Base Core AmountModel ContainerModel PIndexModel StateModel IfaceModel.
Local Open Scope N_scope.

(** ** Filters, filter.rs *)

(** 27-33 ([AssignmentsFilter]): any implementation of the trait, as a function.  The seal
    passed by callers is converted into its outpoint. *)
Definition AFilter : Type := Outpoint -> option WitnessId -> bool.

(** The implementations of the file: 38-40, 42-50, 52-70 (references), 72-82 ([Option]),
    84-88, 90-106 (arrays, slices and vectors), 108-118 (sets), 120-132 (maps).
    A reference calls the filter it refers to: for the receiver [&T] the method of [T] is
    found first. *)
Inductive Filter :=
| FIncludeAll
| FExclude (f : Filter)
| FRef (f : Filter)
| FOption (f : option Filter)
| FOutpoint (o : Outpoint)
| FList (l : list Outpoint)
| FSet (l : oset Outpoint)
| FMap (m : omap Outpoint N).

Fixpoint should_include (f : Filter) (o : Outpoint) (w : option WitnessId) : bool :=
  match f with
  | FIncludeAll => true
  | FExclude g => negb (should_include g o w)
  | FRef g => should_include g o w
  | FOption None => true
  | FOption (Some g) => should_include g o w
  | FOutpoint o' => keqb o' o
  | FList l => existsb (keqb o) l
  | FSet s => smem o s
  | FMap m => existsb (fun o' => keqb o' o) (mkeys m)
  end.

(** ** Allocations *)

(** contract.rs 55-77 ([AllocatedState]) *)
Inductive Allocated := AlVoid | AlAmount (a : N) | AlData (v : N) | AlAttach (f : N).

(** contract.rs 56-76: conversions by [From]; blinding, asset tag and salt are dropped *)
Definition allocated (st : RState) : Allocated :=
  match st with
  | RVoid => AlVoid
  | RAmount v _ _ => AlAmount v
  | RData v _ => AlData v
  | RAttach f _ => AlAttach f
  end.

(** contract.rs 92 ([OwnedAllocation]) *)
Record Owned := { ow_opout : Opout; ow_seal : OutSeal; ow_state : Allocated; ow_witness : option WitnessId }.

(** assignments.rs 178-186 ([transmute]) *)
Definition transmute (a : OutAssign) : Owned :=
  {| ow_opout := oa_opout a; ow_seal := oa_seal a; ow_state := allocated (oa_state a); ow_witness := oa_witness a |}.

(** A filter applied to an allocation, contract.rs 287, 357, 400, 409 *)
Definition passes (f : AFilter) (a : OutAssign) : bool := f (os_outpoint (oa_seal a)) (oa_witness a).

(** contract.rs 41-44 ([ContractError]) *)
Inductive ContractError := FieldNameUnknown (name : N).

(** contract.rs 234-240 ([ContractIface]), without [info].  [cq_decodes] is
    [TypeSystem::strict_deserialize_type] of the type system, [None] where it fails. *)
Record ContractQuery := {
  cq_state : MemContract; cq_schema : FullSchema; cq_iface : FullImpl; cq_decodes : N -> N -> option N
}.

(** ** Queries *)

(** contract.rs 290-309 ([extract_state_unfiltered]), 275-288 ([extract_state]) *)
Definition extract_unfiltered (c : ContractQuery) (state : list OutAssign) (name : N) : result ContractError (list Owned) :=
  let! ty := ok_or (FieldNameUnknown name) (type_of (fm_assigns (cq_iface c)) name) in
  Ok (map transmute (filter (fun a => oo_ty (oa_opout a) =? ty) state)).
Definition extract_state (c : ContractQuery) (state : list OutAssign) (name : N) (f : AFilter) : result ContractError (list Owned) :=
  let! l := extract_unfiltered c state name in
  Ok (filter (fun a => f (os_outpoint (ow_seal a)) (ow_witness a)) l).

(** contract.rs 311-341 *)
Definition q_rights (c : ContractQuery) := extract_state c (outs_all KDeclarative (cq_state c)).
Definition q_fungible (c : ContractQuery) := extract_state c (outs_all KFungible (cq_state c)).
Definition q_data (c : ContractQuery) := extract_state c (outs_all KStructured (cq_state c)).
Definition q_attachments (c : ContractQuery) := extract_state c (outs_all KAttachment (cq_state c)).

(** contract.rs 343-367 ([allocations]), 369-374 ([outpoint_allocations]) *)
Definition q_allocations (c : ContractQuery) (f : AFilter) : list Owned :=
  map transmute (filter (passes f) (outs_all KDeclarative (cq_state c))) ++
  map transmute (filter (passes f) (outs_all KFungible (cq_state c))) ++
  map transmute (filter (passes f) (outs_all KStructured (cq_state c))) ++
  map transmute (filter (passes f) (outs_all KAttachment (cq_state c))).
Definition q_outpoint (c : ContractQuery) (o : Outpoint) : list Owned :=
  q_allocations c (should_include (FOutpoint o)).

(** contract.rs 249-273 ([global]): all values of the iterator, newest first.  It is lazy in
    Rust: the values before one which does not decode are given out before the panic. *)
Definition q_global (c : ContractQuery) (name : N) : result ContractError (list N) :=
  let! ty := ok_or (FieldNameUnknown name) (type_of (fm_globals (cq_iface c)) name) in
  let! sc := expect (mget ty (fs_globals (cq_schema c))) in
  let! vals := expect (global_values (cq_state c) ty) in
  rfold (fun acc p => let! v := expect (cq_decodes c (gs_sem sc) (snd p)) in Ok (acc ++ [v])) [] vals.

(** ** History *)

(** [HashSet<OwnedAllocation>] as the list of its elements.  They are compared by output and
    seal (assignments.rs 100-115); the hash covers state and witness as well, but the
    elements come from one set with the same comparison, so no two agree in these only. *)
Definition same_owned (a b : Owned) : bool := keqb (ow_opout a) (ow_opout b) && keqb (ow_seal a) (ow_seal b).
Definition hs_has (x : Owned) (s : list Owned) : bool := existsb (same_owned x) s.
Definition hs_insert (x : Owned) (s : list Owned) : list Owned := if hs_has x s then s else s ++ [x].
Definition hs_difference (s t : list Owned) : list Owned := filter (fun x => negb (hs_has x t)) s.
(** [map.entry(key).or_default().insert(x)], 402-404 and 414-416 *)
Definition hm_add {K} `{OrdKey K} (k : K) (x : Owned) (m : omap K (list Owned)) : omap K (list Owned) :=
  minsert k (hs_insert x match mget k m with Some s => s | None => [] end) m.

(** contract.rs 105-109 ([OpDirection]), 117-124 ([ContractOp]); assignments.rs 80-83
    ([WitnessInfo]) *)
Inductive Direction := Issued | Received | Sent.
Record WitnessInfo := { wi_id : WitnessId; wi_ord : WitnessOrd }.
Record ContractOp := {
  co_direction : Direction; co_ty : N; co_opids : oset N; co_state : Allocated; co_to : oset OutSeal;
  co_witness : option WitnessInfo
}.

(** contract.rs 84-89 ([unwrap_fungible]) *)
Definition unwrap_fungible (a : Allocated) : result ContractError N :=
  match a with AlAmount v => Ok v | _ => Panic end.

(** contract.rs 126-135 ([reduce_to_ty]) *)
Definition reduce_to_ty (l : list Owned) : result ContractError N :=
  match map (fun a => oo_ty (ow_opout a)) l with
  | [] => Panic
  | t :: ts => rfold (fun t1 t2 => if t1 =? t2 then Ok t1 else Panic) t ts
  end.

Section History.
(** The order in which a hash set gives its elements *)
Context (ord : list Owned -> list Owned).

(** contract.rs 138-177 ([non_fungible_genesis], [non_fungible_sent],
    [non_fungible_received]): the same but for direction and witness *)
Definition non_fungible (d : Direction) (w : option WitnessInfo) (s : list Owned) : list ContractOp :=
  map (fun a => {| co_direction := d; co_ty := oo_ty (ow_opout a); co_opids := sfrom [oo_op (ow_opout a)];
                   co_state := ow_state a; co_to := sfrom [ow_seal a]; co_witness := w |}) (ord s).

(** contract.rs 179-228 ([fungible_genesis], [fungible_sent], [fungible_received]) *)
Definition fungible (d : Direction) (w : option WitnessInfo) (s : list Owned) : result ContractError ContractOp :=
  let! amount := rfold (fun acc a => let! v := unwrap_fungible (ow_state a) in Ok (saturating_add acc v)) 0 (ord s) in
  let! ty := reduce_to_ty (ord s) in
  Ok {| co_direction := d; co_ty := ty; co_opids := sfrom (map (fun a => oo_op (ow_opout a)) (ord s));
        co_state := AlAmount amount; co_to := sfrom (map ow_seal (ord s)); co_witness := w |}.

(** [if T::IS_FUNGIBLE], contract.rs 431-435 and below: one operation or one for each *)
Definition ops_of (k : StateKind) (d : Direction) (w : option WitnessInfo) (s : list Owned) : result ContractError (list ContractOp) :=
  match k with
  | KFungible => let! o := fungible d w s in Ok [o]
  | _ => Ok (non_fungible d w s)
  end.

(** contract.rs 398-406: allocations at our outpoints, by witness *)
Definition our_outpoint (fo : AFilter) (l : list OutAssign) : omap (option WitnessId) (list Owned) :=
  fold_left (fun m a => hm_add (oa_witness a) (transmute a) m) (filter (passes fo) l) [].
(** contract.rs 407-418: allocations of our witnesses *)
Definition our_witness (fw : AFilter) (l : list OutAssign) : result ContractError (omap WitnessId (list Owned)) :=
  rfold (fun m a => let! w := expect (oa_witness a) in Ok (hm_add w (transmute a) m)) [] (filter (passes fw) l).

(** contract.rs 437-482: the operations of one witness.  Removing the entries from the maps
    is left out: each witness id comes once. *)
Definition witness_ops (k : StateKind) (c : MemContract) (mo : omap (option WitnessId) (list Owned))
    (mw : omap WitnessId (list Owned)) (w : WitnessId) : result ContractError (list ContractOp) :=
  let! o := expect (mc_witness_ord c w) in
  let info := Some {| wi_id := w; wi_ord := o |} in
  match mget (Some w) mo, mget w mw with
  | Some ours, Some all =>
      match hs_difference all ours with
      | [] => Ok []
      | ext => ops_of k Sent info ext
      end
  | None, Some ext => ops_of k Sent info ext
  | Some ours, None => ops_of k Received info ours
  | None, None => Panic
  end.

(** contract.rs 389-486 ([operations]) *)
Definition operations (k : StateKind) (c : MemContract) (fo fw : AFilter) : result ContractError (list ContractOp) :=
  let mo := our_outpoint fo (outs_all k c) in
  let! mw := our_witness fw (outs_all k c) in
  let ids := fold_left (fun s w => sinsert w s) (filter_map (fun w => w) (mkeys mo)) (sfrom (mkeys mw)) in
  let! genesis := match mget None mo with Some s => ops_of k Issued None s | None => Ok [] end in
  rfold (fun ops w => let! l := witness_ops k c mo mw w in Ok (ops ++ l)) genesis ids.

(** contract.rs 376-387 ([history]), with 488-518 *)
Definition history (c : MemContract) (fo fw : AFilter) : result ContractError (list ContractOp) :=
  let! f := operations KFungible c fo fw in
  let! r := operations KDeclarative c fo fw in
  let! d := operations KStructured c fo fw in
  let! a := operations KAttachment c fo fw in
  Ok (f ++ r ++ d ++ a).
End History.
