(** * What is expected of lists of contracts, of opening them and of builders: specification
    for C60, C61 *)
From Verif Require Import Base Core SupplModel ContainerModel PIndexModel StateModel StashModel StockModel ConsignModel IfaceModel BuilderModel ComposeModel QueryModel.
Local Open Scope N_scope.

(** The schema has this implementation of the interface with this id. *)
Definition implements (si : SchemaIfaces) (iface : N) (im : ImplRec) : Prop :=
  exists name, mget name (si_impls si) = Some im /\ im_iface im = iface.
Definition unimplemented (si : SchemaIfaces) (iface : N) : Prop := forall im, ~ implements si iface im.

(** The best implementation for an interface: its own, or that of the last of its ancestors
    which has one *)
Definition best_for (i : IfaceRec) (si : SchemaIfaces) (im : ImplRec) : Prop :=
  implements si (if_id i) im \/
  (unimplemented si (if_id i) /\ exists before a after,
     if_inherits i = before ++ a :: after /\ implements si a im /\ forall b, In b after -> unimplemented si b).

(** The implementation for a class of interfaces: of one of them, the first by the name of the
    interface; or else the best one for the first of them which has any *)
Definition class_impl (s : MemStash) (ids : list N) (si : SchemaIfaces) (im : ImplRec) : Prop :=
  (exists name, mget name (si_impls si) = Some im /\ In (im_iface im) ids /\
     forall name' im', mget name' (si_impls si) = Some im' -> In (im_iface im') ids -> name <= name') \/
  ((forall id, In id ids -> unimplemented si id) /\ exists before id after i,
     ids = before ++ id :: after /\ iface_by_id s id = Ok i /\ best_for i si im /\
     forall id' i' im', In id' before -> iface_by_id s id' = Ok i' -> ~ best_for i' si im').

(** These are the types of the schema and the interface, and the libraries of the schema, as
    the stash knows them; it knows them all. *)
Record extracted (s : MemStash) (sc : SchemaRec) (i : IfaceRec) (types libs : omap N N) : Prop := {
  ex_types : forall id t, mget id types = Some t <-> (In id (sch_types sc) \/ In id (if_types i)) /\ mget id (st_types s) = Some t;
  ex_all : forall id, In id (sch_types sc) \/ In id (if_types i) -> mget id (st_types s) <> None;
  ex_libs : forall id l, mget id libs = Some l <-> In id (sch_libs sc) /\ mget id (st_libs s) = Some l;
  ex_all_libs : forall id, In id (sch_libs sc) -> mget id (st_libs s) <> None;
  ex_sorted : msorted types /\ msorted libs;
  ex_few : len libs <= U8MAX
}.

(** A moment, or now if the number of seconds is no date *)
Definition moment (h : Heads) (t m : Z) : Prop :=
  (hd_is_date h t = true /\ m = t) \/ (hd_is_date h t = false /\ m = hd_now h).

(** The info says what the genesis says. *)
Record describes (H : Hashes) (h : Heads) (g : Operation) (x : ContractInfo) : Prop := {
  de_id : ci_id x = op_id H g; de_schema : ci_schema x = op_ty g;
  de_issuer : ci_issuer x = gh_issuer (hd_genesis h g);
  de_issued : moment h (gh_timestamp (hd_genesis h g)) (ci_issued x);
  de_net : ci_testnet x = gh_testnet (hd_genesis h g); de_layers : ci_liquid x = gh_liquid (hd_genesis h g)
}.

(** The contract opened holds the state, the schema and the info of the contract. *)
Record opened (H : Hashes) (h : Heads) (s : Stock) (cid : N) (si : SchemaIfaces) (ct : ContractIface) : Prop := {
  op_state : contract_state (sk_state s) cid = Ok (ct_state ct);
  op_schema : stash_schema (sk_stash s) (cs_schema (mc_state (ct_state ct))) = Ok si;
  op_ct : ct_schema ct = si_schema si;
  op_info : exists g, stash_genesis (sk_stash s) cid = Ok g /\ describes H h g (ct_info ct)
}.

(** Consignments which pass validation have the schema their genesis names. *)
Definition schemas_fit (calls : list StockCall) : Prop :=
  forall c r, In (SkAccept c r) calls -> sch_id (c_schema c) = op_ty (c_genesis c).

(** A reference to an interface as shown in an info: the name if the interface is known *)
Definition shown (s : MemStash) (id : N) (r : IfaceRef) : Prop :=
  match r with
  | RefName n => exists i, iface_by_id s id = Ok i /\ if_name i = n
  | RefId id' => id' = id /\ forall i, iface_by_id s id <> Ok i
  end.

(** A builder which has nothing but asset tags *)
Definition only_tags (b : OpBuilder) (tags : omap N N) : Prop :=
  ob_tags b = tags /\ ob_global b = [] /\ ob_meta b = [] /\ ob_rights b = [] /\ ob_fungible b = [] /\ ob_data b = [] /\ ob_attach b = [].

(** What an info says about an interface *)
Record listed (D : Defs) (h : Heads) (s : MemStash) (i : IfaceRec) (x : IfaceInfo) : Prop := {
  li_id : ii_id x = if_id i; li_name : ii_name x = if_name i;
  li_version : ii_version x = fst (fst (hd_iface h i)); li_developer : ii_developer x = snd (fst (hd_iface h i));
  li_created : moment h (snd (hd_iface h i)) (ii_created x);
  li_inherits : Forall2 (shown s) (if_inherits i) (ii_inherits x);
  li_default : ii_default x = ff_default (df_iface D i);
  li_plain : stash_supplements s (TagIface, if_id i) = [] -> ii_standard x = None /\ ii_features x = [];
  li_annotated : forall su rest, stash_supplements s (TagIface, if_id i) = su :: rest ->
    ii_standard x = suppl_get_default_opt (hd_class h) (df_suppl D su) SubItself ANNOT_CLASS /\
    (forall l, suppl_get_default_opt (hd_features h) (df_suppl D su) SubItself ANNOT_FEATURES = Some l -> ii_features x = l) /\
    (suppl_get_default_opt (hd_features h) (df_suppl D su) SubItself ANNOT_FEATURES = None -> ii_features x = [])
}.
(** What an info says about a schema *)
Record schema_listed (h : Heads) (si : SchemaIfaces) (x : SchemaInfo) : Prop := {
  sl_id : si_id x = sch_id (si_schema si);
  sl_name : si_name x = fst (fst (hd_schema h (si_schema si))); sl_developer : si_developer x = snd (fst (hd_schema h (si_schema si)));
  sl_created : moment h (snd (hd_schema h (si_schema si))) (si_created x);
  sl_impls : Forall2 (fun p y => mi_name y = fst p /\ mi_id y = im_id (snd p) /\ mi_iface y = im_iface (snd p) /\
                        mi_developer y = fst (hd_impl h (snd p)) /\ moment h (snd (hd_impl h (snd p))) (mi_created y))
               (si_impls si) (si_implements x)
}.

(** A builder is made for these definitions. *)
Record made_for (D : Defs) (X : BuildCtx) (sc : SchemaRec) (i : IfaceRec) (im : ImplRec) (types : omap N N) : Prop := {
  mf_schema : bc_schema X = df_schema D sc; mf_iface : bc_iface X = df_iface D i; mf_impl : bc_impl X = df_impl D im;
  mf_fits : bc_fits X = df_fits D types; mf_layer : bc_layer X = df_layer D
}.
(** The first transition type the implementation calls so *)
Definition called (X : BuildCtx) (name ty : N) : Prop :=
  exists before after, fm_transitions (bc_impl X) = before ++ (ty, name) :: after /\ forall t, ~ In (t, name) before.
(** The type of transition asked for: the named one or the default one of the interface *)
Definition asked (X : BuildCtx) (name : option N) (ty : N) : Prop :=
  match name with
  | Some n => called X n ty
  | None => exists n, ff_default (bc_iface X) = Some n /\ called X n ty
  end.
(** A fresh builder of a transition of the contract with the asset tags of its genesis *)
Record fresh_builder (D : Defs) (cid ty : N) (g : Operation) (b : TrBuilder) : Prop := {
  fb_contract : tb_contract b = cid; fb_type : tb_type b = ty; fb_nonce : tb_nonce b = U64MAX; fb_inputs : tb_inputs b = [];
  fb_tags : only_tags (tb_builder b) (df_tags D g)
}.
(** The asset tags of a genesis are an ordered map of at most 255 (rgb-core [AssetTags]). *)
Definition tags_ok (D : Defs) : Prop := forall g, msorted (df_tags D g) /\ len (df_tags D g) <= U8MAX.
