(** * For what the recording of an own payment can be refused: specification for C88

    After a payment was composed, the wallet hands the fascia (the witness transaction, its
    anchors and the bundles of all contracts moved) to its stock.  What can be refused there,
    measured at the stock before the call. *)
From Verif Require Import Base StM Core MergeSpec ContainerModel ContainerSpec PIndexModel PIndexSpec.
From Verif Require Import StateModel StashModel StashSpec StockModel FasciaProps AcceptSpec.
Local Open Scope N_scope.

(** The transitions of a fascia, with their contracts *)
Definition moves (f : Fascia) : list (N * Operation) :=
  flat_map (fun p : N * Bundle => map (fun q : N * Operation => (fst p, snd q)) (b_known (snd p))) (fascia_bundles f).

(** What a fascia tells an index *)
Definition fascia_facts (H : Hashes) (f : Fascia) : list Fact :=
  flat_map (fun p : N * Bundle => bundle_facts H (fst p) (snd p) (fascia_witness_id f)) (fascia_bundles f).
Definition fascia_announces (H : Hashes) (f : Fascia) (x : Fact) : Prop :=
  exists p, In p (fascia_bundles f) /\ bundle_announces H (fst p) (snd p) (fascia_witness_id f) x.

Definition is_out_of (cid : N) (f : Fact) : bool := match f with FOut c _ _ => c =? cid | _ => false end.
Definition is_out_of_at (cid : N) (out : OutSeal) (f : Fact) : bool :=
  match f with FOut c x _ => (c =? cid) && keqb x out | _ => false end.

(** Some seal shown says no output: it is on "the witness transaction" but on another chain *)
Definition fascia_seal_lost (f : Fascia) : Prop :=
  exists m ty no a s, In m (moves f) /\ assigned (snd m) ty no a /\ revealed_seal a = Some s /\
    no_output (Some (fascia_witness_id f)) s.

(** ** Room *)

(** None of the collections of the index would grow beyond its limit. *)
Record facts_room (s : MemIndex) (l : list Fact) : Prop := {
  fr_op : len (mi_op_bundle s) + count is_op l <= U24MAX;
  fr_bundle : len (mi_bundle_contract s) + count is_bundle l <= U24MAX;
  fr_bundle' : len (mi_bundle_witness s) + count is_bundle l <= U24MAX;
  fr_term : len (mi_terminals s) + count is_term l <= U24MAX;
  fr_out : forall cid, len (outs_known s cid) + count (is_out_of cid) l <= U24MAX;
  fr_witness : forall bid, len (or_empty (mget bid (mi_bundle_witness s))) + count (is_witness_of bid) l <= U8MAX;
  fr_secret : forall sec, len (or_empty (mget sec (mi_terminals s))) + count (is_term_of sec) l <= U8MAX;
  fr_seal : forall cid out, len (or_empty (mget out (outs_known s cid))) + count (is_out_of_at cid out) l <= U24MAX
}.

Section Spec.
Context {OG : OrdKey GlobalOut}.

(** The transitions of one contract *)
Definition moves_of (cid : N) (l : list (N * Operation)) : list (N * Operation) := filter (fun m => fst m =? cid) l.

(** A global state type no contract state of the stock has *)
Definition fascia_undeclared (s : MemState) (f : Fascia) : Prop :=
  exists m ty vals cs, In m (moves f) /\ In (ty, vals) (op_globals (snd m)) /\
    mget (fst m) (ms_contracts s) = Some cs /\ mget ty (cs_global cs) = None.

Definition witness_space (s : MemState) : Prop := len (ms_witnesses s) + 2 <= U32MAX.
Record moves_room (s : MemState) (l : list (N * Operation)) : Prop := {
  mr_global : forall cid ty, len (globals_known s cid ty) + total (fun m => globals_in (snd m)) (moves_of cid l) <= U32MAX;
  mr_out : forall cid k, len (outputs_known s cid k) + total (fun m => outputs_in (snd m)) (moves_of cid l) <= U32MAX
}.

(** ** Refusals *)

Definition fascia_refused (H : Hashes) (r : Resolver) (s : Stock) (f : Fascia) (e : StockError) : Prop :=
  let w := fascia_witness_id f in
  match e with
  | InvalidBundle cid bid =>
      (* a bundle shows a transition which its input map does not name *)
      exists b, In (cid, b) (fascia_bundles f) /\ bid = bundle_id H b /\ ~ all_named b
  | SkIndex e =>
      match e with
      | IndexFull => ~ facts_room (sk_index s) (fascia_facts H f)
      | PIndexModel.ContractAbsent cid => mget cid (mi_contracts (sk_index s)) = None /\ exists b, In (cid, b) (fascia_bundles f)
      | DistinctBundleContract bid alt cid =>
          (* the bundle is known as one of another contract, or comes for two contracts *)
          alt <> cid /\ (states (sk_index s) (FBundle bid alt) \/ fascia_announces H f (FBundle bid alt)) /\
          fascia_announces H f (FBundle bid cid)
      | DistinctBundleOp opid alt bid =>
          (* the transition is known as one of another bundle, or comes in two bundles *)
          alt <> bid /\ (states (sk_index s) (FOp opid alt) \/ fascia_announces H f (FOp opid alt)) /\
          fascia_announces H f (FOp opid bid)
      | _ => False
      end
  | SkState e =>
      match e with
      | UnknownContract cid => mget cid (ms_contracts (sk_state s)) = None /\ exists b, In (cid, b) (fascia_bundles f)
      | ResolverFailed w' => w' = w /\ r w = None /\ moves f <> []
      | StateFull => ~ witness_space (sk_state s)
      | _ => False
      end
  | SkStash e =>
      match e with
      | StashFull => ~ (len (st_bundles (sk_stash s)) + len (fascia_bundles f) <= U32MAX /\ len (st_witnesses (sk_stash s)) < U32MAX)
      | StashWitnessMerge e =>
          (* the whole transaction is known and the fascia has its id only *)
          exists old, mget w (st_witnesses (sk_stash s)) = Some old /\
            pw_tx (xw_pub (sw_public old)) <> None /\ pw_tx (xw_pub (fa_witness f)) = None /\
            e = TxidMismatch (w_txid w) (w_txid w)
      | StashAnchor e =>
          (* the transaction is known with another anchor of the same method *)
          exists old m x y, mget w (st_witnesses (sk_stash s)) = Some old /\
            anchor_under m (sw_anchors old) = Some x /\ anchor_under m (fa_anchor f) = Some y /\
            match e with DbcMismatch => an_dbc x <> an_dbc y | UnrelatedProof => an_root x <> an_root y end
      | _ => False
      end
  | _ => False
  end.

(** The call panics *)
Definition fascia_breaks (s : Stock) (f : Fascia) : Prop :=
  fascia_seal_lost f \/ fascia_undeclared (sk_state s) f \/ ~ moves_room (sk_state s) (moves f).

(** ** When a fascia is taken *)

(** The fascia is in order, its witness is known to the resolver and there is room. *)
Record recordable (H : Hashes) (r : Resolver) (s : Stock) (f : Fascia) : Prop := {
  re_named : forall cid b, In (cid, b) (fascia_bundles f) -> all_named b;
  re_known : forall cid b, In (cid, b) (fascia_bundles f) ->
    mget cid (mi_contracts (sk_index s)) <> None /\ mget cid (ms_contracts (sk_state s)) <> None;
  re_one : forall bid a b, fascia_announces H f (FBundle bid a) -> fascia_announces H f (FBundle bid b) -> a = b;
  re_once : forall opid a b, fascia_announces H f (FOp opid a) -> fascia_announces H f (FOp opid b) -> a = b;
  re_resolved : moves f <> [] -> r (fascia_witness_id f) <> None;
  re_seals : ~ fascia_seal_lost f;
  re_globals : ~ fascia_undeclared (sk_state s) f;
  re_index : facts_room (sk_index s) (fascia_facts H f);
  re_moves : moves_room (sk_state s) (moves f);
  re_witness : witness_space (sk_state s);
  re_stash : len (st_bundles (sk_stash s)) + len (fascia_bundles f) <= U32MAX /\ len (st_witnesses (sk_stash s)) < U32MAX
}.

(** It agrees with what the stock has. *)
Record unclashing (H : Hashes) (s : Stock) (f : Fascia) : Prop := {
  un_contract : forall bid alt cid, fascia_announces H f (FBundle bid cid) -> states (sk_index s) (FBundle bid alt) -> alt = cid;
  un_bundle : forall opid alt bid, fascia_announces H f (FOp opid bid) -> states (sk_index s) (FOp opid alt) -> alt = bid;
  un_tx : forall old, mget (fascia_witness_id f) (st_witnesses (sk_stash s)) = Some old ->
    pw_tx (xw_pub (sw_public old)) <> None -> pw_tx (xw_pub (fa_witness f)) <> None;
  un_anchor : forall old m x y, mget (fascia_witness_id f) (st_witnesses (sk_stash s)) = Some old ->
    anchor_under m (sw_anchors old) = Some x -> anchor_under m (fa_anchor f) = Some y ->
    an_dbc x = an_dbc y /\ an_root x = an_root y
}.
End Spec.

(** ** Kits *)

(** Room for what a kit brings *)
Definition kit_room (k : Kit) (s : MemStash) : Prop :=
  room_for k s /\
  (forall id, len (match mget id (st_schemata s) with Some si => si_impls si | None => [] end) + len (k_impls k) <= U8MAX) /\
  len (st_suppl s) + len (k_suppl k) <= U8MAX /\
  forall x, len (or_empty (mget x (st_suppl s))) + count (fun y => keqb (su_content y) x) (k_suppl k) <= U8MAX.
