(** * Why an export is refused: specification for C89 *)
From Verif Require Import Base StM Core MergeModel MergeSpec ContainerModel ContainerSpec StateModel StateSpec StashModel StashSpec StockModel ConsignModel ConsignSpec ExportSpec PIndexModel PIndexSpec.
Local Open Scope N_scope.

(** What is asked for the bundle [bid]: it is the one in which the stock knows an operation of
    the history of what is exported. *)
Definition bundle_of_history (s : Stock) (cid : N) (outputs : list OutSeal) (secret : option N) (bid : N) : Prop :=
  exists id, found_history s cid outputs secret id /\ states (sk_index s) (FOp id bid).

(** An operation of the history spends an output of the operation [id]. *)
Definition spent_in_history (s : Stock) (cid : N) (outputs : list OutSeal) (secret : option N) (id : N) : Prop :=
  exists id' t i, found_history s cid outputs secret id' /\ known_op s id' t /\ In i (op_inputs t) /\ oo_op i = id.

(** The anchor a stored witness has for a closing method *)
Definition anchor_for (sw : SealWitness) (m : CloseMethod) : option Anchor :=
  match m with TapretFirst => tapret_of (sw_anchors sw) | OpretFirst => opret_of (sw_anchors sw) end.

(** The interfaces found for the names of the implementations of a schema *)
Definition found_ifaces (s : MemStash) (si : SchemaIfaces) (ifaces : list (IfaceRec * ImplRec)) : Prop :=
  Forall2 (fun p q => snd q = snd p /\ iface_by_name s (fst p) = Ok (fst q)) (si_impls si) ifaces.

(** What the definitions of a schema lack *)
Definition schema_lacks (s : MemStash) (si : SchemaIfaces) (e : ConsignError) : Prop :=
  match e with
  (** A library is not there, or there are too many of them; *)
  | CsStash (LibAbsent id) => In id (sch_libs (si_schema si)) /\ mget id (st_libs s) = None
  | TooManyLibs id => id = sch_id (si_schema si) /\ ~ at_most U8MAX (fun id => In id (sch_libs (si_schema si)))
  (** a type of the schema or of an interface is not there. *)
  | TypeAbsent id => mget id (st_types s) = None /\
      (In id (sch_types (si_schema si)) \/
       exists name i, In name (mkeys (si_impls si)) /\ iface_by_name s name = Ok i /\ In id (if_types i))
  | _ => False
  end.

Definition export_reason (K : Merkle) (H : Hashes) (s : Stock) (cid : N) (outputs : list OutSeal) (secret : option N)
  (e : ConsignError) : Prop :=
  match e with
  (** The contract is not known; *)
  | CsIndex (PIndexModel.ContractAbsent c) => c = cid /\ mget cid (mi_contracts (sk_index s)) = None
  (** it has no state at an output asked for; *)
  | CsIndex (OutpointUnknown o c) => c = cid /\ In o (map os_outpoint outputs) /\
      forall out oo, states (sk_index s) (FOut cid out oo) -> os_outpoint out <> o
  (** no bundle is known for an operation of the history; *)
  | CsIndex (PIndexModel.BundleAbsent id) => found_history s cid outputs secret id /\ forall bid, ~ states (sk_index s) (FOp id bid)
  (** the stash does not have the bundle, *)
  | CsStash (StashModel.BundleAbsent bid) => bundle_of_history s cid outputs secret bid /\ mget bid (st_bundles (sk_stash s)) = None
  (** or has it without the operation; *)
  | CsConcealed bid id => found_history s cid outputs secret id /\ states (sk_index s) (FOp id bid) /\
      exists b, mget bid (st_bundles (sk_stash s)) = Some b /\ mget id (b_known b) = None
  (** or the bundle does not list an operation which others spend. *)
  | CsTransition (UnrelatedTransition id) => spent_in_history s cid outputs secret id /\ id <> cid /\
      exists bid t b, known_in s id bid t /\ mget bid (st_bundles (sk_stash s)) = Some b /\ ~ In id (mvals (b_inputs b))
  (** The status of a witness is not known, where those before it are archived; *)
  | CsState (AbsentWitness w) => exists bid, bundle_of_history s cid outputs secret bid /\ states (sk_index s) (FWitness bid w) /\
      mget w (ms_witnesses (sk_state s)) = None /\
      forall w', states (sk_index s) (FWitness bid w') -> cmp w' w = Lt -> mget w' (ms_witnesses (sk_state s)) = Some Archived
  (** all witnesses of a bundle are archived; *)
  | CsState AbsentValidWitness => exists bid, bundle_of_history s cid outputs secret bid /\
      forall w, states (sk_index s) (FWitness bid w) -> mget w (ms_witnesses (sk_state s)) = Some Archived
  (** the stash does not have the witness under which the bundle is exported; *)
  | CsStash (WitnessAbsent w) => exists bid, bundle_of_history s cid outputs secret bid /\ chosen s bid w /\
      mget w (st_witnesses (sk_stash s)) = None
  (** it has no anchor for the closing method of the bundle, *)
  | BundleMissedInAnchors bid c => bundle_of_history s cid outputs secret bid /\ states (sk_index s) (FBundle bid c) /\
      exists b w sw, mget bid (st_bundles (sk_stash s)) = Some b /\ chosen s bid w /\
        mget w (st_witnesses (sk_stash s)) = Some sw /\ anchor_for sw (b_method b) = None
  (** or one which does not prove a commitment to the contract. *)
  | WitnessMissesContract w bid c => bundle_of_history s cid outputs secret bid /\ states (sk_index s) (FBundle bid c) /\
      exists b sw an, mget bid (st_bundles (sk_stash s)) = Some b /\ chosen s bid w /\
        mget w (st_witnesses (sk_stash s)) = Some sw /\ anchor_for sw (b_method b) = Some an /\
        mk_proof K (an_root an) (an_known an) c = None
  (** A witness has three bundles, or two with the same closing method. *)
  | CsDouble (AlreadyDouble w) => exists bids, NoDup bids /\ length bids = 3%nat /\
      forall bid, In bid bids -> bundle_of_history s cid outputs secret bid /\ chosen s bid w
  | CsDouble (SameBundleType w) => exists bid bid' b b', bid <> bid' /\
      bundle_of_history s cid outputs secret bid /\ chosen s bid w /\ mget bid (st_bundles (sk_stash s)) = Some b /\
      bundle_of_history s cid outputs secret bid' /\ chosen s bid' w /\ mget bid' (st_bundles (sk_stash s)) = Some b' /\
      b_method b = b_method b'
  (** The stash has no genesis or no schema of the contract; *)
  | CsStash (StashModel.ContractAbsent c) => c = cid /\ mget cid (st_geneses (sk_stash s)) = None
  | CsStash (SchemaAbsent id) => exists g, mget cid (st_geneses (sk_stash s)) = Some g /\ g_schema g = id /\
      mget id (st_schemata (sk_stash s)) = None
  (** there is too much of something; *)
  | TooManyBundles => ~ at_most U32MAX (fun w => exists id bid t, found_history s cid outputs secret id /\ known_in s id bid t /\ chosen s bid w)
  | TooManyTerminals => ~ at_most U16MAX (fun bid => exists x oo t ty no, secret = Some x /\ found s cid outputs secret oo /\ oo_op oo <> cid /\
      known_in s (oo_op oo) bid t /\ assigned_to H t ty no x)
  | TooManySupplements => exists g si ifaces, mget cid (st_geneses (sk_stash s)) = Some g /\
      mget (g_schema g) (st_schemata (sk_stash s)) = Some si /\ found_ifaces (sk_stash s) si ifaces /\
      ~ at_most U8MAX (fun x => exists ct, content cid (g_schema g) ifaces ct /\ first_note (sk_stash s) ct x)
  | TooManySignatures => exists g si ifaces, mget cid (st_geneses (sk_stash s)) = Some g /\
      mget (g_schema g) (st_schemata (sk_stash s)) = Some si /\ found_ifaces (sk_stash s) si ifaces /\
      ~ at_most U8MAX (fun ct => content cid (g_schema g) ifaces ct /\ mget ct (st_sigs (sk_stash s)) <> None)
  (** or the definitions of the schema lack something. *)
  | CsStash (LibAbsent _) | TooManyLibs _ | TypeAbsent _ =>
      exists g si, mget cid (st_geneses (sk_stash s)) = Some g /\ mget (g_schema g) (st_schemata (sk_stash s)) = Some si /\
        schema_lacks (sk_stash s) si e
  | _ => False
  end.

(** Kits: the schema is not there, or its definitions lack something. *)
Definition kit_reason (s : MemStash) (schema : N) (e : ConsignError) : Prop :=
  match e with
  | CsStash (SchemaAbsent id) => id = schema /\ mget schema (st_schemata s) = None
  | e => exists si, mget schema (st_schemata s) = Some si /\ schema_lacks s si e
  end.
