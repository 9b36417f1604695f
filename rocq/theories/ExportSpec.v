(** * When a contract can be exported: specification for C63 *)
From Verif Require Import Base StM Core ContainerModel PIndexModel PIndexSpec StateModel StateSpec StashModel StashSpec StockModel ConsignModel ConsignSpec.
Local Open Scope N_scope.

(** There are at most [n] things which are [P]. *)
Definition at_most {A} (n : N) (P : A -> Prop) : Prop :=
  forall l, NoDup l -> (forall x, In x l -> P x) -> len l <= n.

(** The witness under which a bundle is exported: the first of those known for it which is not
    archived; the status of those before is known. *)
Definition chosen (s : Stock) (bid : N) (w : WitnessId) : Prop :=
  states (sk_index s) (FWitness bid w) /\ live (sk_state s) (Some w) /\
  forall w', states (sk_index s) (FWitness bid w') -> cmp w' w = Lt -> mget w' (ms_witnesses (sk_state s)) = Some Archived.

(** Contents whose signatures and annotations go with the contract *)
Inductive content (cid schema : N) (ifaces : list (IfaceRec * ImplRec)) : ContentId -> Prop :=
| ct_genesis : content cid schema ifaces (TagGenesis, cid)
| ct_schema : content cid schema ifaces (TagSchema, schema)
| ct_iface i im : In (i, im) ifaces -> content cid schema ifaces (TagIface, if_id i)
| ct_impl i im : In (i, im) ifaces -> content cid schema ifaces (TagIfaceImpl, im_id im).

(** All definitions of the contract are at hand, and there are not too many of them. *)
Definition definable (s : MemStash) (cid : N) : Prop :=
  exists g si ifaces,
    mget cid (st_geneses s) = Some g /\ mget (g_schema g) (st_schemata s) = Some si /\
    (* an interface is found for the name of every implementation *)
    Forall2 (fun p q => snd q = snd p /\ iface_by_name s (fst p) = Ok (fst q)) (si_impls si) ifaces /\
    (forall id, In id (sch_types (si_schema si)) -> mget id (st_types s) <> None) /\
    (forall i im id, In (i, im) ifaces -> In id (if_types i) -> mget id (st_types s) <> None) /\
    (forall id, In id (sch_libs (si_schema si)) -> mget id (st_libs s) <> None) /\
    at_most U8MAX (fun id => In id (sch_libs (si_schema si))) /\
    at_most U8MAX (fun ct => content cid (g_schema g) ifaces ct /\ mget ct (st_sigs s) <> None) /\
    at_most U8MAX (fun x => exists ct, content cid (g_schema g) ifaces ct /\ first_note s ct x).

Record exportable (H : Hashes) (K : Merkle) (s : Stock) (cid : N) (outputs : list OutSeal) (secret : option N) : Prop := {
  (** the contract is known, and has state at every output asked for *)
  xp_contract : mget cid (mi_contracts (sk_index s)) <> None;
  xp_outputs : forall o, In o outputs -> exists out oo, os_outpoint out = os_outpoint o /\ states (sk_index s) (FOut cid out oo);
  (** every operation of the history is known, *)
  xp_known : forall id, found_history s cid outputs secret id -> exists t, known_op s id t;
  (** with an anchored bundle under a witness which is not archived; *)
  xp_bundle : forall id bid t, found_history s cid outputs secret id -> known_in s id bid t ->
    exists w a b, chosen s bid w /\ anchored K s bid w a b;
  (** the bundle of an operation which others of the history spend lists it; *)
  xp_listed : forall id t i bid t' b, found_history s cid outputs secret id -> known_op s id t -> In i (op_inputs t) ->
    oo_op i <> cid -> known_in s (oo_op i) bid t' -> mget bid (st_bundles (sk_stash s)) = Some b ->
    In (oo_op i) (mvals (b_inputs b));
  (** under one witness there is one bundle for each closing method. *)
  xp_methods : forall id bid t id' bid' t' w b b',
    found_history s cid outputs secret id -> known_in s id bid t -> found_history s cid outputs secret id' -> known_in s id' bid' t' ->
    chosen s bid w -> chosen s bid' w ->
    mget bid (st_bundles (sk_stash s)) = Some b -> mget bid' (st_bundles (sk_stash s)) = Some b' ->
    b_method b = b_method b' -> bid = bid';
  (** The outputs asked for have one assignment to the secret seal in each bundle. *)
  xp_terminal : forall x, secret = Some x -> one_terminal H s cid outputs x;
  xp_defined : definable (sk_stash s) cid;
  (** And there are not too many bundles and terminals. *)
  xp_bundles_fit : at_most U32MAX (fun w => exists id bid t, found_history s cid outputs secret id /\ known_in s id bid t /\ chosen s bid w);
  xp_terminals_fit : at_most U16MAX (fun bid => exists x oo t ty no, secret = Some x /\ found s cid outputs secret oo /\ oo_op oo <> cid /\
    known_in s (oo_op oo) bid t /\ assigned_to H t ty no x)
}.
