(** * What is expected of schema inheritance, interfaces and implementations

    Independent of how the checks are done: which entries must be where. *)
From Verif Require Import Base IfaceModel.
Local Open Scope N_scope.

(** ** Inheritance of schemata *)

(** Every entry of the one table is in the other, with the same value *)
Definition agrees {V} (own root : omap N V) : Prop := forall n v, mget n own = Some v -> mget n root = Some v.

(** What an operation of a schema asks for is asked for by the root, in the same number *)
Definition op_inherits (own root : OpSchema) : Prop :=
  agrees (os_globals own) (os_globals root) /\ agrees (os_inputs own) (os_inputs root) /\
  agrees (os_assigns own) (os_assigns root) /\ incl (os_redeems own) (os_redeems root) /\
  incl (os_valencies own) (os_valencies root).
Definition ops_inherit (own root : omap N OpSchema) : Prop :=
  forall t o, mget t own = Some o -> exists r, mget t root = Some r /\ op_inherits o r.
(** What the root must have for a schema to be inherited from it *)
Definition schema_inherits (own root : FullSchema) : Prop :=
  agrees (fs_globals own) (fs_globals root) /\ agrees (fs_owned own) (fs_owned root) /\
  incl (fs_valencies own) (fs_valencies root) /\ op_inherits (fs_genesis own) (fs_genesis root) /\
  ops_inherit (fs_transitions own) (fs_transitions root) /\ ops_inherit (fs_extensions own) (fs_extensions root).
(** ... and with the metadata, which the code does not compare *)
Definition schema_inherits_all (own root : FullSchema) : Prop :=
  schema_inherits own root /\ agrees (fs_meta own) (fs_meta root) /\ incl (os_metadata (fs_genesis own)) (os_metadata (fs_genesis root)).

(** The tables are kept as ordered maps and sets *)
Definition op_schema_sorted (o : OpSchema) : Prop :=
  ssorted (os_metadata o) /\ msorted (os_globals o) /\ msorted (os_inputs o) /\ ssorted (os_redeems o) /\
  msorted (os_assigns o) /\ ssorted (os_valencies o).
Definition schema_sorted (s : FullSchema) : Prop :=
  msorted (fs_meta s) /\ msorted (fs_globals s) /\ msorted (fs_owned s) /\ ssorted (fs_valencies s) /\
  op_schema_sorted (fs_genesis s) /\
  msorted (fs_transitions s) /\ (forall t o, mget t (fs_transitions s) = Some o -> op_schema_sorted o) /\
  msorted (fs_extensions s) /\ (forall t o, mget t (fs_extensions s) = Some o -> op_schema_sorted o).

(** The operation of a schema *)
Definition schema_op (s : FullSchema) (ty : OpFullType) : option OpSchema :=
  match ty with
  | FtGenesis => Some (fs_genesis s)
  | FtTransition t => mget t (fs_transitions s)
  | FtExtension t => mget t (fs_extensions s)
  end.
(** An entry which the root does not have, or has with another value *)
Definition differs {V} (own root : omap N V) (n : N) : Prop := exists v, mget n own = Some v /\ mget n root <> Some v.
(** What each report says *)
Definition inheritance_fails (own root : FullSchema) (e : InheritanceFailure) : Prop :=
  let on ty P := exists o r, schema_op own ty = Some o /\ schema_op root ty = Some r /\ P o r in
  match e with
  | GlobalStateMismatch t => differs (fs_globals own) (fs_globals root) t
  | AssignmentTypeMismatch t => differs (fs_owned own) (fs_owned root) t
  | ValencyTypeMismatch t => In t (fs_valencies own) /\ ~ In t (fs_valencies root)
  | TransitionTypeMismatch t => mget t (fs_transitions own) <> None /\ mget t (fs_transitions root) = None
  | ExtensionTypeMismatch t => mget t (fs_extensions own) <> None /\ mget t (fs_extensions root) = None
  | OpGlobalStateMismatch ty t => on ty (fun o r => differs (os_globals o) (os_globals r) t)
  | OpInputMismatch ty t => on ty (fun o r => differs (os_inputs o) (os_inputs r) t)
  | OpAssignmentsMismatch ty t => on ty (fun o r => differs (os_assigns o) (os_assigns r) t)
  | OpRedeemMismatch ty t => on ty (fun o r => In t (os_redeems o) /\ ~ In t (os_redeems r))
  | OpValencyMismatch ty t => on ty (fun o r => In t (os_valencies o) /\ ~ In t (os_valencies r))
  end.

(** ** Consistency of an interface *)

Definition op_iface_sorted (o : OpIface) : Prop :=
  ssorted (oi_metadata o) /\ msorted (oi_globals o) /\ msorted (oi_inputs o) /\ msorted (oi_assigns o) /\
  ssorted (oi_redeems o) /\ ssorted (oi_valencies o) /\ ssorted (oi_errors o).
Definition iface_sorted (f : FullIface) : Prop :=
  msorted (ff_metadata f) /\ msorted (ff_globals f) /\ msorted (ff_assigns f) /\ msorted (ff_valencies f) /\
  op_iface_sorted (ff_genesis f) /\
  msorted (ff_transitions f) /\ (forall n o, mget n (ff_transitions f) = Some o -> op_iface_sorted o) /\
  msorted (ff_extensions f) /\ (forall n o, mget n (ff_extensions f) = Some o -> op_iface_sorted o) /\
  msorted (ff_errors f).

Definition iface_op (f : FullIface) (op : OpName) : option OpIface :=
  match op with
  | GenesisOp => Some (ff_genesis f)
  | TransitionOp n => mget n (ff_transitions f)
  | ExtensionOp n => mget n (ff_extensions f)
  end.
Definition has_inputs (op : OpName) : Prop := match op with TransitionOp _ => True | _ => False end.
Definition has_redeems (op : OpName) : Prop := match op with ExtensionOp _ => True | _ => False end.
Definition has_default (op : OpName) : Prop := match op with GenesisOp => False | _ => True end.

(** What each report on an interface says *)
Definition iface_fails (now : Z) (is_date : Z -> bool) (f : FullIface) (e : IfaceInconsistency) : Prop :=
  let on op P := exists o, iface_op f op = Some o /\ P o in
  match e with
  | InvalidTimestamp t => t = ff_timestamp f /\ is_date t = false
  | FutureTimestamp t => t = ff_timestamp f /\ is_date t = true /\ (now < t)%Z
  | UnknownMetadata op n => on op (fun o => In n (oi_metadata o) /\ mget n (ff_metadata f) = None)
  | UnknownGlobal op n => on op (fun o => mget n (oi_globals o) <> None /\ mget n (ff_globals f) = None)
  | UnknownAssignment op n => on op (fun o => mget n (oi_assigns o) <> None /\ mget n (ff_assigns f) = None)
  | UnknownValency op n => on op (fun o => In n (oi_valencies o) /\ mget n (ff_valencies f) = None)
  | UnknownError op n => on op (fun o => In n (oi_errors o) /\ mget n (ff_errors f) = None)
  | UnknownInput op n => has_inputs op /\ on op (fun o => mget n (oi_inputs o) <> None /\ mget n (ff_assigns f) = None)
  | UnknownRedeem op n => has_redeems op /\ on op (fun o => In n (oi_redeems o) /\ mget n (ff_valencies f) = None)
  | UnknownDefaultAssignment op n => has_default op /\ on op (fun o => oi_default o = Some n /\ mget n (oi_assigns o) = None)
  | MultipleGlobal op n =>
      on op (fun o => exists c g, mget n (oi_globals o) = Some c /\ mget n (ff_globals f) = Some g /\ 1 < oc_min c /\ gi_multiple g = false)
  | MultipleAssignment op n =>
      on op (fun o => exists c a, mget n (oi_assigns o) = Some c /\ mget n (ff_assigns f) = Some a /\ 1 < oc_min c /\ ai_multiple a = false)
  | MultipleInputs op n =>
      has_inputs op /\
      on op (fun o => exists c a, mget n (oi_inputs o) = Some c /\ mget n (ff_assigns f) = Some a /\ 1 < oc_min c /\ ai_multiple a = false)
  | RepeatedOperationName n => mget n (ff_transitions f) <> None /\ mget n (ff_extensions f) <> None
  | UnknownDefaultOp n => ff_default f = Some n /\ mget n (ff_transitions f) = None /\ mget n (ff_extensions f) = None
  | RequiredGlobalAbsent n => (exists g, mget n (ff_globals f) = Some g /\ gi_required g = true) /\ mget n (oi_globals (ff_genesis f)) = None
  | RequiredAssignmentAbsent n => (exists a, mget n (ff_assigns f) = Some a /\ ai_required a = true) /\ mget n (oi_assigns (ff_genesis f)) = None
  | RequiredValencyAbsent n => mget n (ff_valencies f) = Some true /\ ~ In n (oi_valencies (ff_genesis f))
  end.

(** The same in positive terms: names used by operations are declared, multiplicities fit,
    defaults exist, operation names are different, and genesis has what is required *)
Definition iface_consistent (now : Z) (is_date : Z -> bool) (f : FullIface) : Prop :=
  is_date (ff_timestamp f) = true /\ (ff_timestamp f <= now)%Z /\
  (forall op o, iface_op f op = Some o ->
     (forall n, In n (oi_metadata o) -> mget n (ff_metadata f) <> None) /\
     (forall n c, mget n (oi_globals o) = Some c -> exists g, mget n (ff_globals f) = Some g /\ (gi_multiple g = false -> oc_min c <= 1)) /\
     (forall n c, mget n (oi_assigns o) = Some c -> exists a, mget n (ff_assigns f) = Some a /\ (ai_multiple a = false -> oc_min c <= 1)) /\
     (has_inputs op -> forall n c, mget n (oi_inputs o) = Some c -> exists a, mget n (ff_assigns f) = Some a /\ (ai_multiple a = false -> oc_min c <= 1)) /\
     (has_redeems op -> forall n, In n (oi_redeems o) -> mget n (ff_valencies f) <> None) /\
     (forall n, In n (oi_valencies o) -> mget n (ff_valencies f) <> None) /\
     (forall n, In n (oi_errors o) -> mget n (ff_errors f) <> None) /\
     (has_default op -> forall n, oi_default o = Some n -> mget n (oi_assigns o) <> None)) /\
  (forall n, mget n (ff_transitions f) <> None -> mget n (ff_extensions f) = None) /\
  (forall n, ff_default f = Some n -> mget n (ff_transitions f) <> None \/ mget n (ff_extensions f) <> None) /\
  (forall n g, mget n (ff_globals f) = Some g -> gi_required g = true -> mget n (oi_globals (ff_genesis f)) <> None) /\
  (forall n a, mget n (ff_assigns f) = Some a -> ai_required a = true -> mget n (oi_assigns (ff_genesis f)) <> None) /\
  (forall n, mget n (ff_valencies f) = Some true -> In n (oi_valencies (ff_genesis f))).

(** ** Extension of interfaces *)

(** The child's values: those of the extension where it has them *)
Definition overridden {V} (own ext r : omap N V) : Prop :=
  forall n, mget n r = match mget n ext with Some v => Some v | None => mget n own end.
Definition united (own ext r : oset N) : Prop := forall n, In n r <-> In n own \/ In n ext.

(** One state kind can stand for another *)
Definition refines_state (child parent : OwnedIface) : Prop :=
  child = parent \/ parent = OiAny \/ (parent = OiAnyData /\ exists x, child = OiData x).
Definition refines_global (child parent : GlobalIface) : Prop :=
  (gi_sem parent = None \/ gi_sem child = gi_sem parent) /\ (gi_required parent = true -> gi_required child = true).
Definition refines_assign (child parent : AssignIface) : Prop :=
  refines_state (ai_state child) (ai_state parent) /\ (ai_required parent = true -> ai_required child = true) /\
  (ai_public parent = true -> ai_public child = true).
Definition refines_occ (child parent : Occ) : Prop := oc_min parent <= oc_min child.
(** Every entry of the parent is in the child, refined *)
Definition refines_map {V} (R : V -> V -> Prop) (child parent : omap N V) : Prop :=
  forall n p, mget n parent = Some p -> exists c, mget n child = Some c /\ R c p.
Definition refines_default (child parent : option N) : Prop := forall n, parent = Some n -> child = Some n.
Definition refines_op (child parent : OpIface) : Prop :=
  incl (oi_metadata parent) (oi_metadata child) /\
  refines_map refines_occ (oi_globals child) (oi_globals parent) /\
  refines_map refines_occ (oi_assigns child) (oi_assigns parent) /\
  incl (oi_valencies parent) (oi_valencies child) /\ incl (oi_errors parent) (oi_errors child).
Definition refines_transition (child parent : OpIface) : Prop :=
  refines_op child parent /\ refines_map refines_occ (oi_inputs child) (oi_inputs parent) /\
  refines_default (oi_default child) (oi_default parent).
Definition refines_extension (child parent : OpIface) : Prop :=
  refines_op child parent /\ incl (oi_redeems parent) (oi_redeems child) /\
  refines_default (oi_default child) (oi_default parent).
(** The tables of state and genesis *)
Definition refines_tables (child parent : FullIface) : Prop :=
  (forall n, mget n (ff_metadata parent) <> None -> mget n (ff_metadata child) <> None) /\
  refines_map refines_global (ff_globals child) (ff_globals parent) /\
  refines_map refines_assign (ff_assigns child) (ff_assigns parent) /\
  refines_map (fun c p => p = true -> c = true) (ff_valencies child) (ff_valencies parent) /\
  refines_op (ff_genesis child) (ff_genesis parent) /\
  (forall n, mget n (ff_errors parent) <> None -> mget n (ff_errors child) <> None) /\
  refines_default (ff_default child) (ff_default parent).
(** The child has all that the parent has *)
Definition refines (child parent : FullIface) : Prop :=
  refines_tables child parent /\
  refines_map refines_transition (ff_transitions child) (ff_transitions parent) /\
  refines_map refines_extension (ff_extensions child) (ff_extensions parent).
(** ... except for operations which are optional in the parent *)
Definition refines_required (child parent : FullIface) : Prop :=
  refines_tables child parent /\
  (forall n p, mget n (ff_transitions parent) = Some p -> oi_optional p = false ->
     exists c, mget n (ff_transitions child) = Some c /\ refines_transition c p) /\
  (forall n p, mget n (ff_extensions parent) = Some p -> oi_optional p = false ->
     exists c, mget n (ff_extensions child) = Some c /\ refines_extension c p).

(** What exactly the child is: entries of the extension replace those of the first interface *)
Definition joined_default (own ext r : option N) : Prop := r = match ext with Some x => Some x | None => own end.
Definition joined_op (own ext r : OpIface) : Prop :=
  oi_modifier r = oi_modifier own /\ united (oi_metadata own) (oi_metadata ext) (oi_metadata r) /\
  overridden (oi_globals own) (oi_globals ext) (oi_globals r) /\ overridden (oi_assigns own) (oi_assigns ext) (oi_assigns r) /\
  united (oi_valencies own) (oi_valencies ext) (oi_valencies r) /\ united (oi_errors own) (oi_errors ext) (oi_errors r).
Definition joined_transition (own ext r : OpIface) : Prop :=
  joined_op own ext r /\ overridden (oi_inputs own) (oi_inputs ext) (oi_inputs r) /\
  joined_default (oi_default own) (oi_default ext) (oi_default r) /\
  (oi_optional r = true <-> oi_optional own = true \/ oi_optional ext = true).
Definition joined_extension (own ext r : OpIface) : Prop :=
  joined_op own ext r /\ united (oi_redeems own) (oi_redeems ext) (oi_redeems r) /\
  joined_default (oi_default own) (oi_default ext) (oi_default r) /\
  (oi_optional r = true <-> oi_optional own = true \/ oi_optional ext = true).
(** Operations of both; those of the extension only if they are not optional *)
Definition joined_ops (J : OpIface -> OpIface -> OpIface -> Prop) (own ext r : omap N OpIface) : Prop :=
  forall n, match mget n own, mget n ext with
            | None, None => mget n r = None
            | Some o, None => mget n r = Some o
            | None, Some e => mget n r = if oi_optional e then None else Some e
            | Some o, Some e => exists x, mget n r = Some x /\ J o e x
            end.
Definition joined (id_of : FullIface -> N) (own ext : FullIface) (name : N) (r : FullIface) : Prop :=
  ff_name r = name /\ ff_timestamp r = ff_timestamp own /\
  ff_inherits r = ff_inherits own ++ [id_of own] ++ ff_inherits ext ++ [id_of ext] /\
  overridden (ff_metadata own) (ff_metadata ext) (ff_metadata r) /\
  overridden (ff_globals own) (ff_globals ext) (ff_globals r) /\
  overridden (ff_assigns own) (ff_assigns ext) (ff_assigns r) /\
  overridden (ff_valencies own) (ff_valencies ext) (ff_valencies r) /\
  joined_op (ff_genesis own) (ff_genesis ext) (ff_genesis r) /\
  joined_ops joined_transition (ff_transitions own) (ff_transitions ext) (ff_transitions r) /\
  joined_ops joined_extension (ff_extensions own) (ff_extensions ext) (ff_extensions r) /\
  overridden (ff_errors own) (ff_errors ext) (ff_errors r) /\
  joined_default (ff_default own) (ff_default ext) (ff_default r).

(** The two interfaces can be put together *)
Definition compatible_map {V} (R : V -> V -> Prop) (own ext : omap N V) : Prop :=
  forall n o e, mget n own = Some o -> mget n ext = Some e -> R e o.
Definition overridable (own ext : Modifier) : Prop := own <> MFinal /\ ext <> MAbstract.
Definition compatible_default (own ext : option N) : Prop := forall x y, own = Some x -> ext = Some y -> x = y.
Definition compatible_op (own ext : OpIface) : Prop :=
  overridable (oi_modifier own) (oi_modifier ext) /\
  compatible_map refines_occ (oi_globals own) (oi_globals ext) /\ compatible_map refines_occ (oi_assigns own) (oi_assigns ext).
Definition compatible_transition (ext own : OpIface) : Prop :=
  compatible_op own ext /\ compatible_map refines_occ (oi_inputs own) (oi_inputs ext) /\
  compatible_default (oi_default own) (oi_default ext).
Definition compatible_extension (ext own : OpIface) : Prop :=
  compatible_op own ext /\ compatible_default (oi_default own) (oi_default ext).
Definition compatible (own ext : FullIface) : Prop :=
  compatible_map refines_global (ff_globals own) (ff_globals ext) /\
  compatible_map refines_assign (ff_assigns own) (ff_assigns ext) /\
  compatible_map (fun e o => o = true -> e = true) (ff_valencies own) (ff_valencies ext) /\
  compatible_op (ff_genesis own) (ff_genesis ext) /\
  compatible_map compatible_transition (ff_transitions own) (ff_transitions ext) /\
  compatible_map compatible_extension (ff_extensions own) (ff_extensions ext) /\
  compatible_default (ff_default own) (ff_default ext).

(** There is room for both *)
Definition both_fit {A B} (a : list A) (b : list B) : Prop := len a + len b <= U8MAX.
Definition op_fits (own ext : OpIface) : Prop :=
  both_fit (oi_metadata own) (oi_metadata ext) /\ both_fit (oi_globals own) (oi_globals ext) /\
  both_fit (oi_inputs own) (oi_inputs ext) /\ both_fit (oi_assigns own) (oi_assigns ext) /\
  both_fit (oi_redeems own) (oi_redeems ext) /\ both_fit (oi_valencies own) (oi_valencies ext) /\
  both_fit (oi_errors own) (oi_errors ext).
Definition iface_fits (own ext : FullIface) : Prop :=
  both_fit (ff_metadata own) (ff_metadata ext) /\ both_fit (ff_globals own) (ff_globals ext) /\
  both_fit (ff_assigns own) (ff_assigns ext) /\ both_fit (ff_valencies own) (ff_valencies ext) /\
  op_fits (ff_genesis own) (ff_genesis ext) /\
  both_fit (ff_transitions own) (ff_transitions ext) /\
  (forall n o e, mget n (ff_transitions own) = Some o -> mget n (ff_transitions ext) = Some e -> op_fits o e) /\
  both_fit (ff_extensions own) (ff_extensions ext) /\
  (forall n o e, mget n (ff_extensions own) = Some o -> mget n (ff_extensions ext) = Some e -> op_fits o e) /\
  both_fit (ff_errors own) (ff_errors ext) /\
  len (ff_inherits own) + len (ff_inherits ext) + 2 <= U8MAX.

(** ** Implementations *)

(** The tables of interfaces, schemata and implementations, by kind *)
Definition iface_has (f : FullIface) (t : ImplTable) (n : N) : Prop :=
  match t with
  | TMeta => mget n (ff_metadata f) <> None
  | TGlobal => mget n (ff_globals f) <> None
  | TAssignment => mget n (ff_assigns f) <> None
  | TValency => mget n (ff_valencies f) <> None
  | TTransition => mget n (ff_transitions f) <> None
  | TExtension => mget n (ff_extensions f) <> None
  end.
Definition schema_has (s : FullSchema) (t : ImplTable) (id : N) : Prop :=
  match t with
  | TMeta => mget id (fs_meta s) <> None
  | TGlobal => mget id (fs_globals s) <> None
  | TAssignment => mget id (fs_owned s) <> None
  | TValency => In id (fs_valencies s)
  | TTransition => mget id (fs_transitions s) <> None
  | TExtension => mget id (fs_extensions s) <> None
  end.
Definition impl_fields (im : FullImpl) (t : ImplTable) : list (N * N) :=
  match t with
  | TMeta => fm_metadata im | TGlobal => fm_globals im | TAssignment => fm_assigns im
  | TValency => fm_valencies im | TTransition => fm_transitions im | TExtension => fm_extensions im
  end.
(** How many fields of the table have the name *)
Definition times (n : N) (l : list (N * N)) : N := len (filter (fun p => snd p =? n) l).

(** What each report on an implementation says *)
Definition impl_fails (now : Z) (is_date : Z -> bool) (im : FullImpl) (f : FullIface) (s : FullSchema) (e : ImplInconsistency) : Prop :=
  match e with
  | ImplInvalidTimestamp t => t = fm_timestamp im /\ is_date t = false
  | ImplFutureTimestamp t => t = fm_timestamp im /\ is_date t = true /\ (now < t)%Z
  | IfaceAbsentIn t n => iface_has f t n /\ (forall id, ~ In (id, n) (impl_fields im t))
  | SchemaAbsentIn t n id => In (id, n) (impl_fields im t) /\ ~ schema_has s t id
  | RepeatedIn t n c => 3 <= times n (impl_fields im t) /\ c = times n (impl_fields im t) - 1
  | IfaceErrorAbsent n => (exists id, In (id, n) (fm_errors im)) /\ mget n (ff_errors f) = None
  end.

(** Names and type ids correspond one to one *)
Definition one_to_one (l : list (N * N)) : Prop :=
  (forall id id' n, In (id, n) l -> In (id', n) l -> id = id') /\
  (forall id n n', In (id, n) l -> In (id, n') l -> n = n').
(** The kind of state of an assignment in the schema is what the interface says *)
Definition kind_fits (i : OwnedIface) (s : OwnedSchema) : Prop :=
  match i, s with
  | OiAny, _ | OiRights, OsDeclarative | OiAmount, OsFungible | OiAnyData, OsStructured _ | OiAnyAttach, OsAttachment _ => True
  | OiData x, OsStructured y => x = y
  | _, _ => False
  end.
