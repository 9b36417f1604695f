(** * What building an operation means *)
From Verif Require Import Base Core IfaceModel BuilderModel.
Local Open Scope N_scope.

(** ** What was put into a builder, in order of time *)
Inductive Item :=
| ItTag (ty tag : N)                              (* an asset tag *)
| ItMeta (ty v : N)                               (* a value of metadata *)
| ItGlobal (ty v : N)                             (* a value of the global state *)
| ItOwn (ty : N) (seal : BSeal) (st : RState)     (* state assigned to a seal *)
| ItIn (o : Opout) (st : RState)                  (* an input *)
| ItNonce (n : N) | ItMainnet | ItLiquid.

Definition tags (l : list Item) : list (N * N) :=
  filter_map (fun i => match i with ItTag ty t => Some (ty, t) | _ => None end) l.
Definition metas (l : list Item) : list (N * N) :=
  filter_map (fun i => match i with ItMeta ty v => Some (ty, v) | _ => None end) l.
Definition globals (l : list Item) : list (N * N) :=
  filter_map (fun i => match i with ItGlobal ty v => Some (ty, v) | _ => None end) l.
Definition owned (l : list Item) : list (N * BSeal * RState) :=
  filter_map (fun i => match i with ItOwn ty s st => Some (ty, s, st) | _ => None end) l.
Definition ins (l : list Item) : list (Opout * RState) :=
  filter_map (fun i => match i with ItIn o st => Some (o, st) | _ => None end) l.

(** The last value given to a key *)
Definition latest {K V} `{OrdKey K} (l : list (K * V)) (k : K) : option V :=
  fold_left (fun r p => if keqb (fst p) k then Some (snd p) else r) l None.
(** The values given to a key, in order *)
Definition all_for {V} (l : list (N * V)) (k : N) : list V :=
  filter_map (fun p => if fst p =? k then Some (snd p) else None) l.

(** What remains when a later pair replaces the earlier ones with the same key *)
Fixpoint kept {K V} `{OrdKey K} (l : list (K * V)) : list (K * V) :=
  match l with
  | [] => []
  | p :: l' => if existsb (fun q => keqb (fst q) (fst p)) l' then kept l' else p :: kept l'
  end.

(** How many different elements *)
Definition distinct {K} `{OrdKey K} (l : list K) : N := len (nodup key_dec l).

Definition kind_fits_schema (k : StateKind) (s : OwnedSchema) : Prop :=
  match k, s with
  | KDeclarative, OsDeclarative | KFungible, OsFungible | KStructured, OsStructured _ | KAttachment, OsAttachment _ => True
  | _, _ => False
  end.
Definition of_kind (k : StateKind) (l : list (N * BSeal * RState)) : list (N * BSeal * RState) :=
  filter (fun p => kind_eqb (kind_of (snd p)) k) l.
Definition seals_of (k : StateKind) (ty : N) (l : list (N * BSeal * RState)) : list BSeal :=
  filter_map (fun p => if fst (fst p) =? ty then Some (snd (fst p)) else None) (of_kind k l).
Definition types_of (k : StateKind) (l : list (N * BSeal * RState)) : list N := map (fun p => fst (fst p)) (of_kind k l).

(** ** When an item may be put into a builder holding [l] *)
Definition allowed (X : BuildCtx) (l : list Item) (i : Item) : Prop :=
  match i with
  | ItTag ty _ => (* no amounts of the type yet *)
      ~ In ty (types_of KFungible (owned l)) /\ distinct (map fst (tags l)) < 255
  | ItMeta ty v => (* a value of its type, for the first time *)
      (exists sem, mget ty (fs_meta (bc_schema X)) = Some sem /\ bc_fits X sem v = true) /\
      ~ In ty (map fst (metas l)) /\ distinct (map fst (metas l)) < 255
  | ItGlobal ty v =>
      (exists g, mget ty (fs_globals (bc_schema X)) = Some g /\ bc_fits X (gs_sem g) v = true) /\
      (In ty (map fst (globals l)) -> len (all_for (globals l) ty) < 65535) /\
      (~ In ty (map fst (globals l)) -> distinct (map fst (globals l)) < 255)
  | ItOwn ty seal st => (* the kind of state the schema says; amounts with the tag of their type *)
      (exists s, mget ty (fs_owned (bc_schema X)) = Some s /\ kind_fits_schema (kind_of st) s) /\
      (forall v b tag, st = RAmount v b tag -> latest (tags l) ty = Some tag) /\
      (In ty (types_of (kind_of st) (owned l)) -> distinct (seals_of (kind_of st) ty (owned l)) < 65535) /\
      (~ In ty (types_of (kind_of st) (owned l)) -> distinct (types_of (kind_of st) (owned l)) < 255)
  | ItIn _ _ => distinct (map fst (ins l)) < 255
  | ItNonce _ | ItMainnet | ItLiquid => True
  end.

Fixpoint allowed_all (X : BuildCtx) (l : list Item) (new : list Item) : Prop :=
  match new with [] => True | i :: new' => allowed X l i /\ allowed_all X (l ++ [i]) new' end.

(** ** What a call on a transition of type [tt] asks for *)
Definition assignment_named (X : BuildCtx) (name ty : N) : Prop := type_of (fm_assigns (bc_impl X)) name = Some ty.
Definition default_named (X : BuildCtx) (tt name : N) : Prop :=
  exists op i, name_of (fm_transitions (bc_impl X)) tt = Some op /\
    mget op (ff_transitions (bc_iface X)) = Some i /\ oi_default i = Some name.

Inductive t_asks (X : BuildCtx) (tt : N) (l : list Item) : TCall -> Item -> Prop :=
| ask_nonce n : t_asks X tt l (TSetNonce n) (ItNonce n)
| ask_tag name ty tag : assignment_named X name ty -> t_asks X tt l (TAssetTag name tag) (ItTag ty tag)
| ask_tag_raw ty tag : t_asks X tt l (TAssetTagRaw ty tag) (ItTag ty tag)
| ask_meta name ty v : type_of (fm_metadata (bc_impl X)) name = Some ty -> t_asks X tt l (TMetadata name (Some v)) (ItMeta ty v)
| ask_global name ty v : type_of (fm_globals (bc_impl X)) name = Some ty -> t_asks X tt l (TGlobal name (Some v)) (ItGlobal ty v)
| ask_input o st : t_asks X tt l (TInput o st) (ItIn o st)
| ask_owned name ty s st : assignment_named X name ty -> t_asks X tt l (TOwnedDet name s st) (ItOwn ty s st)
| ask_owned_raw ty s st : t_asks X tt l (TOwnedRaw ty s st) (ItOwn ty s st)
| ask_rights name ty s : assignment_named X name ty -> t_asks X tt l (TRights name s) (ItOwn ty s RVoid)
| ask_fungible name ty s v b tag : assignment_named X name ty -> latest (tags l) ty = Some tag ->
    t_asks X tt l (TFungible name s v b) (ItOwn ty s (RAmount v b tag))
| ask_fungible_det name ty s v b tag : assignment_named X name ty -> latest (tags l) ty = Some tag ->
    t_asks X tt l (TFungibleDet name s v b) (ItOwn ty s (RAmount v b tag))
| ask_fungible_raw ty s v b tag : latest (tags l) ty = Some tag ->
    t_asks X tt l (TFungibleRaw ty s v b) (ItOwn ty s (RAmount v b tag))
| ask_default name ty s v b tag : default_named X tt name -> assignment_named X name ty -> latest (tags l) ty = Some tag ->
    t_asks X tt l (TFungibleDefault s v b) (ItOwn ty s (RAmount v b tag))
| ask_default_det name ty s v b tag : default_named X tt name -> assignment_named X name ty -> latest (tags l) ty = Some tag ->
    t_asks X tt l (TFungibleDefaultDet s v b) (ItOwn ty s (RAmount v b tag))
| ask_data name ty s v salt : assignment_named X name ty -> t_asks X tt l (TData name s (Some v) salt) (ItOwn ty s (RData v salt))
| ask_data_det name ty s v salt : assignment_named X name ty -> t_asks X tt l (TDataDet name s v salt) (ItOwn ty s (RData v salt))
| ask_data_raw ty s v salt : t_asks X tt l (TDataRaw ty s v salt) (ItOwn ty s (RData v salt))
| ask_data_default name ty s v salt : default_named X tt name -> assignment_named X name ty ->
    t_asks X tt l (TDataDefault s (Some v) salt) (ItOwn ty s (RData v salt))
| ask_attach name ty s f salt : assignment_named X name ty -> t_asks X tt l (TAttachment name s f salt) (ItOwn ty s (RAttach f salt))
| ask_attach_det name ty s f salt : assignment_named X name ty -> t_asks X tt l (TAttachmentDet name s f salt) (ItOwn ty s (RAttach f salt)).

(** A transition builder made for a contract and a type, after the calls which were accepted;
    a rejected call gives no builder, and its caller goes on with the one they had. *)
Inductive t_built (X : BuildCtx) (contract tt : N) : TrBuilder -> list Item -> Prop :=
| t_built_new : t_built X contract tt (tb_new contract tt) []
| t_built_call b l c b' i : t_built X contract tt b l -> t_call X b c = Ok b' -> t_asks X tt l c i ->
    t_built X contract tt b' (l ++ [i]).

(** ** What a call on a contract builder asks for *)

(** A seal on a chain the contract was made for *)
Definition layer_ok (X : BuildCtx) (l : list Item) (s : BSeal) : Prop :=
  match (match s with BRevealed s => s_layer s | BConcealed c => bc_layer X c end) with
  | Bitcoin => True
  | Liquid => In ItLiquid l
  end.
(** Amounts get the tag of their type; without one, a new tag is made. *)
Definition amount_items (l : list Item) (ty : N) (s : BSeal) (v b tag : N) : list Item :=
  match latest (tags l) ty with
  | Some t => [ItOwn ty s (RAmount v b t)]
  | None => [ItTag ty tag; ItOwn ty s (RAmount v b tag)]
  end.

Inductive c_asks (X : BuildCtx) (l : list Item) : CCall -> list Item -> Prop :=
| cask_mainnet : c_asks X l CMainnet [ItMainnet]
| cask_liquid : c_asks X l CLiquid [ItLiquid]
| cask_tag name ty tag : assignment_named X name ty -> c_asks X l (CAssetTag name tag) [ItTag ty tag]
| cask_meta name ty v : type_of (fm_metadata (bc_impl X)) name = Some ty -> c_asks X l (CMetadata name (Some v)) [ItMeta ty v]
| cask_global name ty v : type_of (fm_globals (bc_impl X)) name = Some ty -> c_asks X l (CGlobal name (Some v)) [ItGlobal ty v]
| cask_owned name ty s st : layer_ok X l s -> assignment_named X name ty -> c_asks X l (COwnedDet name s st) [ItOwn ty s st]
| cask_rights name ty s : layer_ok X l s -> assignment_named X name ty -> c_asks X l (CRights name s) [ItOwn ty s RVoid]
| cask_fungible name ty s v b tag : layer_ok X l s -> assignment_named X name ty ->
    c_asks X l (CFungible name s v b tag) (amount_items l ty s v b tag)
| cask_fungible_det name ty s v b tag : layer_ok X l s -> assignment_named X name ty ->
    c_asks X l (CFungibleDet name s v b tag) (amount_items l ty s v b tag)
| cask_data name ty s v salt : layer_ok X l s -> assignment_named X name ty ->
    c_asks X l (CData name s (Some v) salt) [ItOwn ty s (RData v salt)]
| cask_data_det name ty s v salt : layer_ok X l s -> assignment_named X name ty ->
    c_asks X l (CDataDet name s v salt) [ItOwn ty s (RData v salt)]
| cask_attach name ty s f salt : layer_ok X l s -> assignment_named X name ty ->
    c_asks X l (CAttachment name s f salt) [ItOwn ty s (RAttach f salt)]
| cask_attach_det name ty s f salt : layer_ok X l s -> assignment_named X name ty ->
    c_asks X l (CAttachmentDet name s f salt) [ItOwn ty s (RAttach f salt)].

Inductive c_built (X : BuildCtx) (issuer : N) : CtBuilder -> list Item -> Prop :=
| c_built_new : c_built X issuer (cb_new issuer) []
| c_built_call b l c b' new : c_built X issuer b l -> c_call X b c = Ok b' -> c_asks X l c new ->
    c_built X issuer b' (l ++ new).

(** ** What the completed operation shows *)

(** The nonce set last, or the greatest *)
Definition nonce_of (l : list Item) : N := fold_left (fun n i => match i with ItNonce m => m | _ => n end) l U64MAX.

(** A value per key, when there is one *)
Definition or_none {A} (l : list A) : option (list A) := match l with [] => None | _ => Some l end.

(** The state assigned to a seal: the seal is shown or concealed, the state is shown *)
Definition assigned (s : BSeal) (st : RState) : Assign :=
  match s with BRevealed s => Revealed s st | BConcealed c => ConfidentialSeal c st end.
(** All assignments of an operation, with their types *)
Definition made (o : Operation) : list (N * Assign) :=
  flat_map (fun p => map (fun a => (fst p, a)) (ta_list (snd p))) (op_assigns o).
(** The same without the blinding of amounts *)
Definition unblind (st : RState) : RState := match st with RAmount v _ t => RAmount v 0 t | _ => st end.
Definition unblinded (a : Assign) : Assign :=
  match a with ConfidentialSeal s st => ConfidentialSeal s (unblind st) | Revealed s st => Revealed s (unblind st) | _ => a end.

(** All values and inputs which were put in, once each, and of the state put to one seal what
    was put there last; assignments are in vectors of their kind.  What becomes of the
    blindings is said in [balanced_type]. *)
Definition shows_items (l : list Item) (o : Operation) : Prop :=
  (forall ty, mget ty (op_globals o) = or_none (all_for (globals l) ty)) /\
  Permutation (map (fun p => (fst p, unblinded (snd p))) (made o))
              (map (fun p => (fst (fst p), unblinded (assigned (snd (fst p)) (snd p)))) (kept (owned l))) /\
  (forall ty t a, mget ty (op_assigns o) = Some t -> In a (ta_list t) ->
     exists st, revealed_state a = Some st /\ kind_of st = ta_kind t).

(** ** Blindings *)

(** [zero_balanced] finds what completes the sum of the outputs to that of the inputs, in the
    field of scalars modulo [q] *)
Definition balances (q : N) (P : Pedersen) : Prop :=
  forall i o b, pd_balance P i o = Some b -> (list_sum o + b) mod q = list_sum i mod q.

Definition blinding_of (st : RState) : N := match st with RAmount _ b _ => b | _ => 0 end.
(** The state of a type *)
Definition state_of (ty : N) (l : list (N * BSeal * RState)) : list (BSeal * RState) :=
  filter_map (fun p => if fst (fst p) =? ty then Some (snd (fst p), snd p) else None) l.
(** The inputs of a type *)
Definition inputs_of (ty : N) (l : list (Opout * RState)) : list (Opout * RState) := filter (fun p => oo_ty (fst p) =? ty) l.
(** The same pairs in the order of their keys *)
Definition in_order {K V} `{OrdKey K} (l l' : list (K * V)) : Prop :=
  Permutation l l' /\ StronglySorted (fun p q => cmp (fst p) (fst q) = Lt) l'.
Definition blindings (l : list (BSeal * RState)) : list N := map (fun p => blinding_of (snd p)) l.
Definition input_blinds (P : Pedersen) (inputs : list (Opout * RState)) : list N :=
  match inputs with [] => [pd_empty P] | _ => map (fun p => blinding_of (snd p)) inputs end.

(** The amounts [out] of a type as they were put in, ordered by their seals, are assigned in
    this order; the last one gets the blinding which makes up the balance with the inputs of
    the type, [inputs], or with [pd_empty] when there are none. *)
Definition balanced_type (q : N) (P : Pedersen) (inputs : list (Opout * RState)) (out : list (BSeal * RState)) (t : TypedAssigns) : Prop :=
  exists first s v b0 tag b,
    in_order out (first ++ [(s, RAmount v b0 tag)]) /\
    ta_list t = map (fun p => assigned (fst p) (snd p)) first ++ [assigned s (RAmount v b tag)] /\
    (list_sum (blindings first) + b) mod q = list_sum (input_blinds P inputs) mod q.

(** The balance can be made up *)
Definition can_balance (P : Pedersen) (inputs : list (Opout * RState)) (out : list (BSeal * RState)) : Prop :=
  (forall o st, In (o, st) inputs -> kind_of st = KFungible) /\
  (forall inputs' first last, in_order inputs inputs' -> in_order out (first ++ [last]) ->
     exists b, pd_balance P (input_blinds P inputs') (blindings first) = Some b).

(** ** Calls which can be answered *)

(** The implementation only names types of its schema (checked by [IfaceImpl::check]) *)
Definition names_known (X : BuildCtx) : Prop :=
  (forall name ty, type_of (fm_assigns (bc_impl X)) name = Some ty -> mget ty (fs_owned (bc_schema X)) <> None) /\
  (forall name ty, type_of (fm_globals (bc_impl X)) name = Some ty -> mget ty (fs_globals (bc_schema X)) <> None) /\
  (forall name ty, type_of (fm_metadata (bc_impl X)) name = Some ty -> mget ty (fs_meta (bc_schema X)) <> None).
(** A type given by its number is one of the schema; a default is only asked for in a
    transition which the interface has *)
Definition t_known (X : BuildCtx) (tt : N) (c : TCall) : Prop :=
  match c with
  | TOwnedRaw ty _ _ | TFungibleRaw ty _ _ _ | TDataRaw ty _ _ _ => mget ty (fs_owned (bc_schema X)) <> None
  | TFungibleDefault _ _ _ | TFungibleDefaultDet _ _ _ | TDataDefault _ _ _ =>
      exists op, name_of (fm_transitions (bc_impl X)) tt = Some op /\ mget op (ff_transitions (bc_iface X)) <> None
  | _ => True
  end.
