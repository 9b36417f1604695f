(** * What the properties of the stash say, independently of how it is written *)
From Verif Require Import Base StM Core ContainerModel ContainerSpec MergeSpec StashModel.
Local Open Scope N_scope.

(** ** C48 *)

(** A stash as it can be reached: collections are ordered, everything is filed under its
    own id, an implementation under the schema it is for and the name of its interface. *)
Record filed (H : Hashes) (s : MemStash) : Prop := {
  fi_schema : forall id si, mget id (st_schemata s) = Some si -> sch_id (si_schema si) = id;
  fi_iface : forall id i, mget id (st_ifaces s) = Some i -> if_id i = id;
  fi_impl : forall id si name im, mget id (st_schemata s) = Some si -> mget name (si_impls si) = Some im ->
    im_schema im = id /\ exists i, mget (im_iface im) (st_ifaces s) = Some i /\ if_name i = name;
  fi_genesis : forall id g, mget id (st_geneses s) = Some g -> contract_id H g = id;
  fi_bundle : forall id b, mget id (st_bundles s) = Some b -> bundle_id H b = id;
  fi_extension : forall id e, mget id (st_extensions s) = Some e -> op_id H e = id;
  fi_witness : forall w x, mget w (st_witnesses s) = Some x -> sw_id x = w;
  fi_suppl : forall c l x, mget c (st_suppl s) = Some l -> In x l -> su_content x = c
}.

(** Every implementation of the kit is for a schema and an interface which the kit brings
    or the stash has. *)
Definition self_contained (k : Kit) (s : MemStash) : Prop :=
  forall im, In im (k_impls k) ->
    ((exists sc, In sc (k_schemata k) /\ sch_id sc = im_schema im) \/
     (exists si, stash_schema s (im_schema im) = Ok si)) /\
    ((exists i, In i (k_ifaces k) /\ if_id i = im_iface im) \/
     (exists i, iface_by_id s (im_iface im) = Ok i)).

(** There is room for the definitions of the kit. *)
Definition room_for (k : Kit) (s : MemStash) : Prop :=
  len (st_types s) + len (k_types k) <= U24MAX /\
  len (st_libs s) + len (k_scripts k) <= U16MAX /\
  len (st_schemata s) + len (k_schemata k) <= U8MAX /\
  len (st_ifaces s) + len (k_ifaces k) <= U8MAX.

(** ** C49 *)

(** The signature of content [c] by identity [id] in the stash *)
Definition signature (s : MemStash) (c : ContentId) (id : N) : option N :=
  match sigs_for s c with Some m => mget id m | None => None end.

(** The collections are ordered, as the types of the code guarantee. *)
Record stash_sorted (s : MemStash) : Prop := {
  so_schemata : msorted (st_schemata s);
  so_impls : forall id si, mget id (st_schemata s) = Some si -> msorted (si_impls si);
  so_ifaces : msorted (st_ifaces s);
  so_geneses : msorted (st_geneses s);
  so_suppl : msorted (st_suppl s);
  so_suppls : forall c l, mget c (st_suppl s) = Some l -> ssorted l;
  so_bundles : msorted (st_bundles s);
  so_extensions : msorted (st_extensions s);
  so_witnesses : msorted (st_witnesses s);
  so_attachments : msorted (st_attachments s);
  so_seals : ssorted (st_seals s);
  so_types : msorted (st_types s);
  so_identities : msorted (st_identities s);
  so_libs : msorted (st_libs s);
  so_sigs : msorted (st_sigs s);
  so_sig : forall c m, mget c (st_sigs s) = Some m -> msorted m
}.

(** The implementation is for a schema and an interface the stash has. *)
Definition impl_known (s : MemStash) (im : ImplRec) : Prop :=
  mget (im_schema im) (st_schemata s) <> None /\ mget (im_iface im) (st_ifaces s) <> None.

(** The implementation belongs under the schema [id] and the interface name [name]. *)
Definition impl_at (s : MemStash) (id name : N) (im : ImplRec) : bool :=
  (im_schema im =? id) &&
  match mget (im_iface im) (st_ifaces s) with Some i => if_name i =? name | None => false end.

(** The last element satisfying a test *)
Definition find_last {A} (f : A -> bool) (l : list A) : option A := find f (rev l).

(** There is room for the signatures [l]: ten per content, the limits of the collections. *)
Definition sigs_room (l : omap ContentId (omap N N)) (s : MemStash) : Prop :=
  len (st_sigs s) + len l <= U16MAX /\
  len (st_identities s) + list_sum (map (fun p => len (snd p)) l) <= U16MAX /\
  forall c sigs, In (c, sigs) l ->
    len (match sigs_for s c with Some m => m | None => [] end) + len sigs <= SIGSMAX.

(** The signature the kit has for this content by this identity *)
Definition offered (l : omap ContentId (omap N N)) (c : ContentId) (id : N) : option N :=
  match mget c l with Some m => mget id m | None => None end.

(** The implementation filed under a schema and an interface name *)
Definition impl_under (s : MemStash) (id name : N) : option ImplRec :=
  match mget id (st_schemata s) with Some si => mget name (si_impls si) | None => None end.

(** [s'] is [s] after importing the kit: known schemata and interfaces stay, new ones are
    added; of implementations, types and libraries the last one given counts; supplements
    are collected; nothing else is touched, apart from signatures and identities. *)
Record kit_imported (k : Kit) (s s' : MemStash) : Prop := {
  ki_schema : forall id,
    option_map si_schema (mget id (st_schemata s')) =
    match mget id (st_schemata s) with
    | Some si => Some (si_schema si)
    | None => find (fun sc => sch_id sc =? id) (k_schemata k)
    end;
  ki_iface : forall id,
    mget id (st_ifaces s') =
    match mget id (st_ifaces s) with
    | Some i => Some i
    | None => find (fun i => if_id i =? id) (k_ifaces k)
    end;
  ki_impl : forall id name,
    impl_under s' id name =
    match find_last (impl_at s' id name) (k_impls k) with
    | Some im => Some im
    | None => impl_under s id name
    end;
  ki_type : forall id,
    mget id (st_types s') =
    match find_last (fun p => fst p =? id) (k_types k) with Some p => Some (snd p) | None => mget id (st_types s) end;
  ki_lib : forall id,
    mget id (st_libs s') =
    match find_last (fun p => fst p =? id) (k_scripts k) with Some p => Some (snd p) | None => mget id (st_libs s) end;
  ki_suppl : forall c x,
    In x (stash_supplements s' c) <-> (In x (k_suppl k) /\ su_content x = c) \/ In x (stash_supplements s c);
  ki_rest : st_geneses s' = st_geneses s /\ st_bundles s' = st_bundles s /\
    st_extensions s' = st_extensions s /\ st_witnesses s' = st_witnesses s /\
    st_attachments s' = st_attachments s /\ st_seals s' = st_seals s
}.

(** ** C26 *)

(** What validation and the types of the code guarantee of the operations and bundles
    coming in: ordered maps, transitions filed under their ids and not more of them than
    inputs; and for a consignment one entry per witness, ordered signatures. *)
Definition op_wf (o : Operation) : Prop := msorted (op_assigns o).
Definition bundle_ok (H : Hashes) (b : Bundle) : Prop :=
  bundle_wf H b /\ len (b_known b) <= len (b_inputs b).
Record cons_ok (H : Hashes) (c : Consignment) : Prop := {
  co_gen : op_wf (c_genesis c);
  co_ext : forall e, In e (c_extensions c) -> op_wf e;
  co_bundles : forall wb p, In wb (c_bundles c) -> In p (anchored_iter (wb_bundles wb)) -> bundle_ok H (snd p);
  co_witnesses : NoDup (map wb_id (c_bundles c));
  co_sigs : msorted (c_signatures c);
  co_sig : forall x sigs, In (x, sigs) (c_signatures c) -> msorted sigs
}.

(** A call bringing only such things *)
Definition call_ok (H : Hashes) (c : StashCall) : Prop :=
  match c with
  | ShConsignment c => cons_ok H c
  | ShBundle b => bundle_ok H b
  | _ => True
  end.

(** All that can be looked up is the same. *)
Record same_view (s s' : MemStash) : Prop := {
  sv_schema : forall id, option_map si_schema (mget id (st_schemata s')) = option_map si_schema (mget id (st_schemata s));
  sv_iface : forall id, mget id (st_ifaces s') = mget id (st_ifaces s);
  sv_impl : forall id name, impl_under s' id name = impl_under s id name;
  sv_genesis : forall id, mget id (st_geneses s') = mget id (st_geneses s);
  sv_suppl : forall c x, In x (stash_supplements s' c) <-> In x (stash_supplements s c);
  sv_bundle : forall id, mget id (st_bundles s') = mget id (st_bundles s);
  sv_extension : forall id, mget id (st_extensions s') = mget id (st_extensions s);
  sv_witness : forall w, mget w (st_witnesses s') = mget w (st_witnesses s);
  sv_attachment : forall id, mget id (st_attachments s') = mget id (st_attachments s);
  sv_seals : st_seals s' = st_seals s;
  sv_type : forall id, mget id (st_types s') = mget id (st_types s);
  sv_lib : forall id, mget id (st_libs s') = mget id (st_libs s);
  sv_trust : forall id, mget id (st_identities s') = mget id (st_identities s);
  sv_sig : forall c id, signature s' c id = signature s c id
}.
