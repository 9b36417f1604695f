(** * Why a builder refuses a call *)
From Verif Require Import Base Core IfaceModel BuilderModel BuilderSpec.
Local Open Scope N_scope.

(** ** There is no room for the item *)
Definition tags_full (l : list Item) : Prop := 255 <= distinct (map fst (tags l)).
Definition metas_full (l : list Item) : Prop := 255 <= distinct (map fst (metas l)).
Definition inputs_full (l : list Item) : Prop := 255 <= distinct (map fst (ins l)).
Definition globals_full (l : list Item) (ty : N) : Prop :=
  (In ty (map fst (globals l)) /\ 65535 <= len (all_for (globals l) ty)) \/
  (~ In ty (map fst (globals l)) /\ 255 <= distinct (map fst (globals l))).
Definition owned_full (l : list Item) (k : StateKind) (ty : N) : Prop :=
  (In ty (types_of k (owned l)) /\ 65535 <= distinct (seals_of k ty (owned l))) \/
  (~ In ty (types_of k (owned l)) /\ 255 <= distinct (types_of k (owned l))).

(** Amounts bear the tag of their type; other state has none. *)
Definition tag_right (l : list Item) (ty : N) (st : RState) : Prop :=
  match st with RAmount _ _ tag => latest (tags l) ty = Some tag | _ => True end.

(** ** What is wrong with an item which is put into a builder holding [l] *)
Inductive wrong (X : BuildCtx) (l : list Item) : Item -> BuilderError -> Prop :=
| tag_late ty tag :                 (* amounts of the type are there, with their tag *)
    In ty (types_of KFungible (owned l)) -> wrong X l (ItTag ty tag) (AssetTagAutomatic ty)
| tag_full ty tag :
    ~ In ty (types_of KFungible (owned l)) -> tags_full l -> wrong X l (ItTag ty tag) Confinement
| meta_unfit ty v sem :             (* the value is not of the type of the schema *)
    mget ty (fs_meta (bc_schema X)) = Some sem -> bc_fits X sem v = false -> wrong X l (ItMeta ty v) NotOfType
| meta_again ty v sem :             (* there is one already, or there are too many *)
    mget ty (fs_meta (bc_schema X)) = Some sem -> bc_fits X sem v = true ->
    In ty (map fst (metas l)) \/ metas_full l -> wrong X l (ItMeta ty v) (MetadataInvalid ty)
| global_unfit ty v g :
    mget ty (fs_globals (bc_schema X)) = Some g -> bc_fits X (gs_sem g) v = false -> wrong X l (ItGlobal ty v) NotOfType
| global_full ty v g :
    mget ty (fs_globals (bc_schema X)) = Some g -> bc_fits X (gs_sem g) v = true ->
    globals_full l ty -> wrong X l (ItGlobal ty v) Confinement
| amount_untagged ty s v b tag :    (* there is no tag for the type *)
    latest (tags l) ty = None -> wrong X l (ItOwn ty s (RAmount v b tag)) (AssetTagMissed ty)
| amount_other ty s v b tag t :     (* there is another one *)
    latest (tags l) ty = Some t -> t <> tag -> wrong X l (ItOwn ty s (RAmount v b tag)) (AssetTagInvalid ty)
| own_unfit ty s st sc :            (* the schema has another kind of state for the type *)
    tag_right l ty st -> mget ty (fs_owned (bc_schema X)) = Some sc -> ~ kind_fits_schema (kind_of st) sc ->
    wrong X l (ItOwn ty s st) (InvalidStateType ty)
| own_full ty s st sc :
    tag_right l ty st -> mget ty (fs_owned (bc_schema X)) = Some sc -> kind_fits_schema (kind_of st) sc ->
    owned_full l (kind_of st) ty -> wrong X l (ItOwn ty s st) Confinement
| input_full o st : inputs_full l -> wrong X l (ItIn o st) Confinement.

(** ** Parts of calls on transitions *)

(** The call gives data which is too long to be serialized *)
Definition t_too_long (c : TCall) : Prop :=
  match c with
  | TMetadata _ None | TGlobal _ None | TData _ _ None _ | TDataDefault _ None _ => True
  | _ => False
  end.
(** The call is about the default assignment of the transition *)
Definition t_by_default (c : TCall) : bool :=
  match c with TFungibleDefault _ _ _ | TFungibleDefaultDet _ _ _ | TDataDefault _ _ _ => true | _ => false end.
(** The call gives the name of an assignment *)
Definition t_name (c : TCall) : option N :=
  match c with
  | TAssetTag name _ | TOwnedDet name _ _ | TRights name _ | TFungible name _ _ _ | TFungibleDet name _ _ _
  | TData name _ _ _ | TDataDet name _ _ _ | TAttachment name _ _ _ | TAttachmentDet name _ _ _ => Some name
  | _ => None
  end.
Definition t_about (X : BuildCtx) (tt : N) (c : TCall) (name : N) : Prop :=
  t_name c = Some name \/ (t_by_default c = true /\ default_named X tt name).
(** The call gives an amount, without a tag *)
Definition t_amount (c : TCall) : bool :=
  match c with
  | TFungible _ _ _ _ | TFungibleDet _ _ _ _ | TFungibleDefault _ _ _ | TFungibleDefaultDet _ _ _ | TFungibleRaw _ _ _ _ => true
  | _ => false
  end.
(** The type of state of the call *)
Definition t_type (X : BuildCtx) (tt : N) (c : TCall) (ty : N) : Prop :=
  match c with
  | TFungibleRaw ty' _ _ _ => ty' = ty
  | _ => exists name, t_about X tt c name /\ assignment_named X name ty
  end.
(** The transition has no default assignment *)
Definition no_default (X : BuildCtx) (tt : N) : Prop :=
  exists op i, name_of (fm_transitions (bc_impl X)) tt = Some op /\
    mget op (ff_transitions (bc_iface X)) = Some i /\ oi_default i = None.

(** ** Why a call on a transition is refused *)
Inductive t_refused (X : BuildCtx) (tt : N) (l : list Item) : TCall -> BuilderError -> Prop :=
| no_default_named c : t_by_default c = true -> no_default X tt -> t_refused X tt l c NoDefaultAssignment
| too_long c : t_too_long c -> (t_by_default c = true -> exists name, default_named X tt name) ->
    t_refused X tt l c NotSerializable
| no_metadata name v : (forall ty, type_of (fm_metadata (bc_impl X)) name <> Some ty) ->
    t_refused X tt l (TMetadata name (Some v)) (MetadataNotFound name)
| no_global name v : (forall ty, type_of (fm_globals (bc_impl X)) name <> Some ty) ->
    t_refused X tt l (TGlobal name (Some v)) (GlobalNotFound name)
| no_assignment c name : ~ t_too_long c -> t_about X tt c name -> (forall ty, ~ assignment_named X name ty) ->
    t_refused X tt l c (AssignmentNotFound name)
| no_tag c ty : t_amount c = true -> t_type X tt c ty -> latest (tags l) ty = None ->
    t_refused X tt l c (AssetTagMissed ty)
| wrong_item c i e : t_asks X tt l c i -> wrong X l i e -> t_refused X tt l c e.

(** ** The same for contracts *)
Definition c_too_long (c : CCall) : Prop :=
  match c with CMetadata _ None | CGlobal _ None | CData _ _ None _ => True | _ => False end.
Definition c_name (c : CCall) : option N :=
  match c with
  | CAssetTag name _ | COwnedDet name _ _ | CRights name _ | CFungible name _ _ _ _ | CFungibleDet name _ _ _ _
  | CData name _ _ _ | CDataDet name _ _ _ | CAttachment name _ _ _ | CAttachmentDet name _ _ _ => Some name
  | _ => None
  end.
(** The seal of the call, and its chain *)
Definition c_seal (c : CCall) : option BSeal :=
  match c with
  | COwnedDet _ s _ | CRights _ s | CFungible _ s _ _ _ | CFungibleDet _ s _ _ _
  | CData _ s _ _ | CDataDet _ s _ _ | CAttachment _ s _ _ | CAttachmentDet _ s _ _ => Some s
  | _ => None
  end.
Definition chain_of (X : BuildCtx) (s : BSeal) : Layer1 := match s with BRevealed s => s_layer s | BConcealed c => bc_layer X c end.
Definition c_layer_ok (X : BuildCtx) (l : list Item) (c : CCall) : Prop := forall s, c_seal c = Some s -> layer_ok X l s.

(** The first item which is wrong *)
Inductive first_wrong (X : BuildCtx) (l : list Item) : list Item -> BuilderError -> Prop :=
| first_here i new e : wrong X l i e -> first_wrong X l (i :: new) e
| first_later i new e : allowed X l i -> first_wrong X (l ++ [i]) new e -> first_wrong X l (i :: new) e.

Inductive c_refused (X : BuildCtx) (l : list Item) : CCall -> BuilderError -> Prop :=
| c_no_layer c s : c_seal c = Some s -> ~ layer_ok X l s -> c_refused X l c (InvalidLayer1 (chain_of X s))
| c_too_long_value c : c_layer_ok X l c -> c_too_long c -> c_refused X l c NotSerializable
| c_no_metadata name v : (forall ty, type_of (fm_metadata (bc_impl X)) name <> Some ty) ->
    c_refused X l (CMetadata name (Some v)) (MetadataNotFound name)
| c_no_global name v : (forall ty, type_of (fm_globals (bc_impl X)) name <> Some ty) ->
    c_refused X l (CGlobal name (Some v)) (GlobalNotFound name)
| c_no_assignment c name : c_layer_ok X l c -> ~ c_too_long c -> c_name c = Some name ->
    (forall ty, ~ assignment_named X name ty) -> c_refused X l c (AssignmentNotFound name)
| c_wrong_item c new e : c_asks X l c new -> first_wrong X l new e -> c_refused X l c e.
