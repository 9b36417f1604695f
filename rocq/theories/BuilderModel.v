(** * Building operations: src/interface/builder.rs

    Names of fields are numbers here, as in IfaceModel.v.  Blinding factors, salts and asset
    tags which the code draws at random are arguments of the calls. *)
From Verif Require Import Base Core IfaceModel.
Local Open Scope N_scope.

(** ** What the builders work with *)

(** src/containers/seal.rs 110-116 ([BuilderSeal]), with its derived order: revealed seals
    come before concealed ones.  A concealed seal is a commitment, which contains its chain. *)
Inductive BSeal := BRevealed (s : Seal) | BConcealed (c : N).
Definition bseal_key (s : BSeal) : bool * (option Seal * N) :=
  match s with BRevealed s => (false, (Some s, 0)) | BConcealed c => (true, (None, c)) end.
Lemma bseal_key_inj a b : bseal_key a = bseal_key b -> a = b.
Proof. destruct a, b; cbn; intros [= ]; subst; reflexivity. Qed.
#[export] Instance OrdBSeal : OrdKey BSeal := OrdVia bseal_key bseal_key_inj.

(** rgb-core [RevealedValue] *)
Record RValue := { rv_value : N; rv_blinding : N; rv_tag : N }.

(** The schema, interface and implementation a builder is made for, which no call changes
    (builder.rs 828-831), and the type system (845): [bc_fits sem v] says that the data [v]
    can be read as the type [sem] ([TypeSystem::strict_deserialize_type]).  [bc_layer] is the
    chain of a concealed seal. *)
Record BuildCtx := {
  bc_schema : FullSchema; bc_iface : FullIface; bc_impl : FullImpl;
  bc_fits : N -> N -> bool; bc_layer : N -> Layer1
}.

(** rgb-core [BlindingFactor]: [EMPTY] and [zero_balanced] *)
Record Pedersen := { pd_empty : N; pd_balance : list N -> list N -> option N }.

(** builder.rs 48-111 ([BuilderError]) *)
Inductive BuilderError :=
| MetadataNotFound (name : N) | MetadataInvalid (ty : N) | GlobalNotFound (name : N) | AssignmentNotFound (name : N)
| TransitionNotFound (name : N) | InvalidStateField (name : N) | InvalidStateType (ty : N)
| AssetTagMissed (ty : N) | AssetTagAutomatic (ty : N) | AssetTagInvalid (ty : N)
| NoOperationSubtype | NoDefaultAssignment | InvalidLayer1 (l : Layer1)
| NotSerializable | NotOfType | Confinement | ContractInconsistent.

(** 826-846 ([OperationBuilder]): the parts which calls change *)
Record OpBuilder := {
  ob_tags : omap N N;
  ob_global : omap N (list N);
  ob_meta : omap N N;
  ob_rights : omap N (oset BSeal);
  ob_fungible : omap N (omap BSeal RValue);
  ob_data : omap N (omap BSeal (N * N));
  ob_attach : omap N (omap BSeal (N * N))
}.

(** 849-883 ([with], [deterministic]) *)
Definition ob_new : OpBuilder :=
  {| ob_tags := []; ob_global := []; ob_meta := []; ob_rights := []; ob_fungible := []; ob_data := []; ob_attach := [] |}.

Definition ob_set_tags (b : OpBuilder) m : OpBuilder :=
  {| ob_tags := m; ob_global := ob_global b; ob_meta := ob_meta b; ob_rights := ob_rights b;
     ob_fungible := ob_fungible b; ob_data := ob_data b; ob_attach := ob_attach b |}.
Definition ob_set_global (b : OpBuilder) m : OpBuilder :=
  {| ob_tags := ob_tags b; ob_global := m; ob_meta := ob_meta b; ob_rights := ob_rights b;
     ob_fungible := ob_fungible b; ob_data := ob_data b; ob_attach := ob_attach b |}.
Definition ob_set_meta (b : OpBuilder) m : OpBuilder :=
  {| ob_tags := ob_tags b; ob_global := ob_global b; ob_meta := m; ob_rights := ob_rights b;
     ob_fungible := ob_fungible b; ob_data := ob_data b; ob_attach := ob_attach b |}.
Definition ob_set_rights (b : OpBuilder) m : OpBuilder :=
  {| ob_tags := ob_tags b; ob_global := ob_global b; ob_meta := ob_meta b; ob_rights := m;
     ob_fungible := ob_fungible b; ob_data := ob_data b; ob_attach := ob_attach b |}.
Definition ob_set_fungible (b : OpBuilder) m : OpBuilder :=
  {| ob_tags := ob_tags b; ob_global := ob_global b; ob_meta := ob_meta b; ob_rights := ob_rights b;
     ob_fungible := m; ob_data := ob_data b; ob_attach := ob_attach b |}.
Definition ob_set_data (b : OpBuilder) m : OpBuilder :=
  {| ob_tags := ob_tags b; ob_global := ob_global b; ob_meta := ob_meta b; ob_rights := ob_rights b;
     ob_fungible := ob_fungible b; ob_data := m; ob_attach := ob_attach b |}.
Definition ob_set_attach (b : OpBuilder) m : OpBuilder :=
  {| ob_tags := ob_tags b; ob_global := ob_global b; ob_meta := ob_meta b; ob_rights := ob_rights b;
     ob_fungible := ob_fungible b; ob_data := ob_data b; ob_attach := m |}.

(** 894-896 ([assignments_type]), as used in 944-947 and elsewhere *)
Definition assigns_type (X : BuildCtx) (name : N) : option N := type_of (fm_assigns (bc_impl X)) name.
Definition named {A} (X : BuildCtx) (name : N) (k : N -> result BuilderError A) : result BuilderError A :=
  let! ty := ok_or (AssignmentNotFound name) (assigns_type X name) in k ty.

(** 917-924 ([state_schema]): an unknown type is a panic *)
Definition state_schema (X : BuildCtx) (ty : N) : result BuilderError OwnedSchema :=
  expect (mget ty (fs_owned (bc_schema X))).

(** 950-955 ([asset_tag_raw]) and 941-947 ([asset_tag]) *)
Definition asset_tag_raw (b : OpBuilder) (ty : N) : result BuilderError N :=
  ok_or (AssetTagMissed ty) (mget ty (ob_tags b)).
Definition asset_tag (X : BuildCtx) (b : OpBuilder) (name : N) : result BuilderError N :=
  named X name (asset_tag_raw b).

(** 972-983 ([add_asset_tag_raw]) and 957-970 ([add_asset_tag]) *)
Definition add_asset_tag_raw (b : OpBuilder) (ty tag : N) : result BuilderError OpBuilder :=
  if mhas ty (ob_fungible b) then Err (AssetTagAutomatic ty)
  else let! m := ok_or Confinement (cinsert U8MAX ty tag (ob_tags b)) in Ok (ob_set_tags b m).
Definition add_asset_tag (X : BuildCtx) (b : OpBuilder) (name tag : N) : result BuilderError OpBuilder :=
  named X name (fun ty => add_asset_tag_raw b ty tag).

(** 985-1001 ([init_asset_tag]); [random] is the tag which may be made *)
Definition init_asset_tag (X : BuildCtx) (b : OpBuilder) (name random : N) : result BuilderError (OpBuilder * N) :=
  named X name (fun ty =>
    match mget ty (ob_tags b) with
    | Some tag => Ok (b, tag)
    | None => let! m := ok_or Confinement (cinsert U8MAX ty random (ob_tags b)) in Ok (ob_set_tags b m, random)
    end).

(** 1003-1019 ([add_metadata]); a value is its serialization, [None] when it is too long.
    rgb-core [Metadata::add_value] refuses a type which is already there. *)
Definition add_metadata (X : BuildCtx) (b : OpBuilder) (name : N) (value : option N) : result BuilderError OpBuilder :=
  let! v := ok_or NotSerializable value in
  let! ty := ok_or (MetadataNotFound name) (type_of (fm_metadata (bc_impl X)) name) in
  let! sem := expect (mget ty (fs_meta (bc_schema X))) in
  if bc_fits X sem v then
    if mhas ty (ob_meta b) then Err (MetadataInvalid ty)
    else let! m := ok_or (MetadataInvalid ty) (cinsert U8MAX ty v (ob_meta b)) in Ok (ob_set_meta b m)
  else Err NotOfType.

(** rgb-core [GlobalState::add_state] *)
Definition add_state (ty v : N) (g : omap N (list N)) : option (omap N (list N)) :=
  match mget ty g with
  | Some l => option_map (fun l' => minsert ty l' g) (cpush_back U16MAX v l)
  | None => cinsert U8MAX ty [v] g
  end.
(** 1021-1039 ([add_global_state]) *)
Definition add_global_state (X : BuildCtx) (b : OpBuilder) (name : N) (value : option N) : result BuilderError OpBuilder :=
  let! v := ok_or NotSerializable value in
  let! ty := ok_or (GlobalNotFound name) (type_of (fm_globals (bc_impl X)) name) in
  let! g := expect (mget ty (fs_globals (bc_schema X))) in
  if bc_fits X (gs_sem g) v then
    let! m := ok_or Confinement (add_state ty v (ob_global b)) in Ok (ob_set_global b m)
  else Err NotOfType.

(** The common part of 1179-1188, 1244-1251 and 1312-1320 *)
Definition put_state {V} (ty : N) (seal : BSeal) (v : V) (m : omap N (omap BSeal V)) : option (omap N (omap BSeal V)) :=
  match mget ty m with
  | Some l => option_map (fun l' => minsert ty l' m) (cinsert U16MAX seal v l)
  | None => cinsert U8MAX ty [(seal, v)] m
  end.

(** 1103-1124 ([add_rights_raw]) *)
Definition add_rights_raw (X : BuildCtx) (b : OpBuilder) (ty : N) (seal : BSeal) : result BuilderError OpBuilder :=
  let! s := state_schema X ty in
  match s with
  | OsDeclarative =>
      let! m := ok_or Confinement
        match mget ty (ob_rights b) with
        | Some l => option_map (fun l' => minsert ty l' (ob_rights b)) (cpush U16MAX seal l)
        | None => cinsert U8MAX ty [seal] (ob_rights b)
        end in
      Ok (ob_set_rights b m)
  | _ => Err (InvalidStateType ty)
  end.

(** 1168-1191 ([add_fungible_state_raw]) *)
Definition add_fungible_raw (X : BuildCtx) (b : OpBuilder) (ty : N) (seal : BSeal) (v : RValue) : result BuilderError OpBuilder :=
  let! s := state_schema X ty in
  match s with
  | OsFungible => let! m := ok_or Confinement (put_state ty seal v (ob_fungible b)) in Ok (ob_set_fungible b m)
  | _ => Err (InvalidStateType ty)
  end.

(** 1235-1256 ([add_data_raw]); the value and its salt *)
Definition add_data_raw (X : BuildCtx) (b : OpBuilder) (ty : N) (seal : BSeal) (v : N * N) : result BuilderError OpBuilder :=
  let! s := state_schema X ty in
  match s with
  | OsStructured _ => let! m := ok_or Confinement (put_state ty seal v (ob_data b)) in Ok (ob_set_data b m)
  | _ => Err (InvalidStateType ty)
  end.

(** 1303-1325 ([add_attachment_raw]); the attached file with its media type, and the salt *)
Definition add_attachment_raw (X : BuildCtx) (b : OpBuilder) (ty : N) (seal : BSeal) (v : N * N) : result BuilderError OpBuilder :=
  let! s := state_schema X ty in
  match s with
  | OsAttachment _ => let! m := ok_or Confinement (put_state ty seal v (ob_attach b)) in Ok (ob_set_attach b m)
  | _ => Err (InvalidStateType ty)
  end.

(** 1059-1087 ([add_owned_state_raw]); [PersistedState] (src/persistence/state.rs 77-85) is
    [RState] here *)
Definition add_owned_raw (X : BuildCtx) (b : OpBuilder) (ty : N) (seal : BSeal) (st : RState) : result BuilderError OpBuilder :=
  match st with
  | RVoid => add_rights_raw X b ty seal
  | RAmount v bl tag =>
      let! t := asset_tag_raw b ty in
      if t =? tag then add_fungible_raw X b ty seal {| rv_value := v; rv_blinding := bl; rv_tag := tag |}
      else Err (AssetTagInvalid ty)
  | RData v salt => add_data_raw X b ty seal (v, salt)
  | RAttach f salt => add_attachment_raw X b ty seal (f, salt)
  end.

(** 1126-1146 ([add_fungible_state]); the tag is read, the blinding is random *)
Definition add_fungible_state (X : BuildCtx) (b : OpBuilder) (name : N) (seal : BSeal) (v random : N) : result BuilderError OpBuilder :=
  named X name (fun ty =>
    let! tag := asset_tag_raw b ty in
    add_fungible_raw X b ty seal {| rv_value := v; rv_blinding := random; rv_tag := tag |}).
(** 1193-1213 ([add_data]) *)
Definition add_data (X : BuildCtx) (b : OpBuilder) (name : N) (seal : BSeal) (value : option N) (random : N) : result BuilderError OpBuilder :=
  let! v := ok_or NotSerializable value in
  named X name (fun ty => add_data_raw X b ty seal (v, random)).

(** ** Completing, 1327-1447 *)

(** The assignment made of a seal and a state, as in 1336-1347, 1381-1392, 1398-1409, 1415-1426 *)
Definition assign_of (seal : BSeal) (st : RState) : Assign :=
  match seal with BRevealed s => Revealed s st | BConcealed c => ConfidentialSeal c st end.

(** 1356-1363: the blindings of the inputs of a type; another kind of state is a panic *)
Fixpoint input_blindings (ty : N) (inputs : list (Opout * RState)) : result BuilderError (list N) :=
  match inputs with
  | [] => Ok []
  | (o, st) :: l =>
      if oo_ty o =? ty then
        match st with
        | RAmount _ b _ => let! r := input_blindings ty l in Ok (b :: r)
        | _ => Panic
        end
      else input_blindings ty l
  end.

(** 1350-1372: the last assignment gets another blinding *)
Fixpoint set_last_blinding (b : N) (l : list (BSeal * RValue)) : list (BSeal * RValue) :=
  match l with
  | [] => []
  | [(s, v)] => [(s, {| rv_value := rv_value v; rv_blinding := b; rv_tag := rv_tag v |})]
  | x :: l' => x :: set_last_blinding b l'
  end.

(** [Confined::try_from_iter(..).expect("at least one element")] *)
Definition typed_assigns (k : StateKind) (l : list Assign) : result BuilderError TypedAssigns :=
  match l with
  | [] => Panic
  | _ => if len l <=? U16MAX then Ok {| ta_kind := k; ta_list := l |} else Panic
  end.

(** 1331-1377 *)
Definition complete_fungible (P : Pedersen) (inputs : list (Opout * RState)) (ty : N) (l : list (BSeal * RValue))
  : result BuilderError TypedAssigns :=
  let blindings := map (fun p => rv_blinding (snd p)) l in
  let! l' :=
    match l with
    | [] => Ok []
    | _ =>
        let! ins := input_blindings ty inputs in
        let ins := match ins with [] => [pd_empty P] | _ => ins end in
        let! b := expect (pd_balance P ins (removelast blindings)) in
        Ok (set_last_blinding b l)
    end in
  typed_assigns KFungible
    (map (fun p => assign_of (fst p) (RAmount (rv_value (snd p)) (rv_blinding (snd p)) (rv_tag (snd p)))) l').

Fixpoint rmap_entries {A B} (f : N -> A -> result BuilderError B) (m : omap N A) : result BuilderError (omap N B) :=
  match m with
  | [] => Ok []
  | (k, a) :: m' => let! b := f k a in let! r := rmap_entries f m' in Ok ((k, b) :: r)
  end.

(** [Confined::extend(..).expect("too many assignments")] *)
Definition extend_assigns (a : Assignments) (l : Assignments) : result BuilderError Assignments :=
  rfold (fun a p => expect (cinsert U8MAX (fst p) (snd p) a)) a l.

(** 1327-1447 ([complete]) for the assignments; the other parts are taken as they are.  Rights
    are kept in a hash set: [order] is the order in which it lists its elements.  Transitions
    have inputs, genesis does not ([inputs] is empty then, 1364). *)
Definition complete (P : Pedersen) (order : list BSeal -> list BSeal) (inputs : list (Opout * RState)) (b : OpBuilder)
  : result BuilderError Assignments :=
  let! fungible := rmap_entries (complete_fungible P inputs) (ob_fungible b) in
  let! data := rmap_entries (fun _ l => typed_assigns KStructured
                  (map (fun p => assign_of (fst p) (RData (fst (snd p)) (snd (snd p)))) l)) (ob_data b) in
  let! rights := rmap_entries (fun _ l => typed_assigns KDeclarative
                  (map (fun s => assign_of s RVoid) (order l))) (ob_rights b) in
  let! attach := rmap_entries (fun _ l => typed_assigns KAttachment
                  (map (fun p => assign_of (fst p) (RAttach (fst (snd p)) (snd (snd p)))) l)) (ob_attach b) in
  let! a := extend_assigns fungible data in
  let! a := extend_assigns a rights in
  extend_assigns a attach.

(** ** Transitions, 433-823 *)

(** 434-440 ([TransitionBuilder]) *)
Record TrBuilder := { tb_contract : N; tb_builder : OpBuilder; tb_nonce : N; tb_type : N; tb_inputs : omap Opout RState }.

(** 523-553 ([with], [deterministic]) *)
Definition tb_new (contract ty : N) : TrBuilder :=
  {| tb_contract := contract; tb_builder := ob_new; tb_nonce := U64MAX; tb_type := ty; tb_inputs := [] |}.
(** rgb-core [TransitionType::BLANK] *)
Definition BLANK : N := U16MAX.
(** 443-461 ([blank_transition]) *)
Definition blank_transition (contract : N) : TrBuilder := tb_new contract BLANK.
(** 463-491 ([default_transition]) *)
Definition default_transition (X : BuildCtx) (contract : N) : result BuilderError TrBuilder :=
  let! ty := ok_or NoOperationSubtype
    match ff_default (bc_iface X) with Some name => type_of (fm_transitions (bc_impl X)) name | None => None end in
  Ok (tb_new contract ty).
(** 493-521 ([named_transition]) *)
Definition named_transition (X : BuildCtx) (contract name : N) : result BuilderError TrBuilder :=
  let! ty := ok_or (TransitionNotFound name) (type_of (fm_transitions (bc_impl X)) name) in
  Ok (tb_new contract ty).

Definition tb_set (b : TrBuilder) (ob : OpBuilder) : TrBuilder :=
  {| tb_contract := tb_contract b; tb_builder := ob; tb_nonce := tb_nonce b; tb_type := tb_type b; tb_inputs := tb_inputs b |}.

(** 611-614 ([add_input]) *)
Definition add_input (b : TrBuilder) (o : Opout) (st : RState) : result BuilderError TrBuilder :=
  let! m := ok_or Confinement (cinsert U8MAX o st (tb_inputs b)) in
  Ok {| tb_contract := tb_contract b; tb_builder := tb_builder b; tb_nonce := tb_nonce b; tb_type := tb_type b; tb_inputs := m |}.

(** 616-622 ([default_assignment]) with 887-893 ([transition_iface]) *)
Definition default_assignment (X : BuildCtx) (b : TrBuilder) : result BuilderError N :=
  let! name := expect (name_of (fm_transitions (bc_impl X)) (tb_type b)) in
  let! t := expect (mget name (ff_transitions (bc_iface X))) in
  ok_or NoDefaultAssignment (oi_default t).

(** 655-667 ([add_owned_state_raw]) *)
Definition tb_add_owned_raw (X : BuildCtx) (b : TrBuilder) (ty : N) (seal : BSeal) (st : RState) : result BuilderError TrBuilder :=
  let! _ :=
    match st with
    | RAmount _ _ tag =>
        let! t := asset_tag_raw (tb_builder b) ty in
        if t =? tag then Ok tt else Err (AssetTagInvalid ty)
    | _ => Ok tt
    end in
  let! ob := add_owned_raw X (tb_builder b) ty seal st in Ok (tb_set b ob).

(** 707-724 ([add_fungible_state_det]), with 1148-1166 *)
Definition tb_add_fungible_det (X : BuildCtx) (b : TrBuilder) (name : N) (seal : BSeal) (v bl : N) : result BuilderError TrBuilder :=
  let! ty := ok_or (AssignmentNotFound name) (assigns_type X name) in
  let! tag := asset_tag_raw (tb_builder b) ty in
  let! ob := named X name (fun ty => add_fungible_raw X (tb_builder b) ty seal {| rv_value := v; rv_blinding := bl; rv_tag := tag |}) in
  Ok (tb_set b ob).

(** 726-737 ([add_fungible_state_raw]) *)
Definition tb_add_fungible_raw (X : BuildCtx) (b : TrBuilder) (ty : N) (seal : BSeal) (v bl : N) : result BuilderError TrBuilder :=
  let! tag := asset_tag_raw (tb_builder b) ty in
  let! ob := add_fungible_raw X (tb_builder b) ty seal {| rv_value := v; rv_blinding := bl; rv_tag := tag |} in
  Ok (tb_set b ob).

(** 759-769 ([add_data_raw]) *)
Definition tb_add_data_raw (X : BuildCtx) (b : TrBuilder) (ty : N) (seal : BSeal) (v salt : N) : result BuilderError TrBuilder :=
  let! ob := add_data_raw X (tb_builder b) ty seal (v, salt) in Ok (tb_set b ob).

(** The calls of the public interface, 557-801; the deterministic and the randomized method
    are one where they only differ in who chooses the blinding. *)
Inductive TCall :=
| TSetNonce (n : N)
| TAssetTag (name tag : N) | TAssetTagRaw (ty tag : N)
| TMetadata (name : N) (v : option N) | TGlobal (name : N) (v : option N)
| TInput (o : Opout) (st : RState)
| TOwnedDet (name : N) (seal : BSeal) (st : RState) | TOwnedRaw (ty : N) (seal : BSeal) (st : RState)
| TRights (name : N) (seal : BSeal)
| TFungibleDefault (seal : BSeal) (v random : N) | TFungibleDefaultDet (seal : BSeal) (v blinding : N)
| TFungible (name : N) (seal : BSeal) (v random : N) | TFungibleDet (name : N) (seal : BSeal) (v blinding : N)
| TFungibleRaw (ty : N) (seal : BSeal) (v blinding : N)
| TData (name : N) (seal : BSeal) (v : option N) (random : N) | TDataDet (name : N) (seal : BSeal) (v salt : N)
| TDataRaw (ty : N) (seal : BSeal) (v salt : N) | TDataDefault (seal : BSeal) (v : option N) (random : N)
| TAttachment (name : N) (seal : BSeal) (file random : N) | TAttachmentDet (name : N) (seal : BSeal) (file salt : N).

Definition t_call (X : BuildCtx) (b : TrBuilder) (c : TCall) : result BuilderError TrBuilder :=
  let ob := tb_builder b in
  match c with
  | TSetNonce n =>                                                          (* 559-562 *)
      Ok {| tb_contract := tb_contract b; tb_builder := ob; tb_nonce := n; tb_type := tb_type b; tb_inputs := tb_inputs b |}
  | TAssetTag name tag => rmap (tb_set b) (add_asset_tag X ob name tag)     (* 569-577 *)
  | TAssetTagRaw ty tag => rmap (tb_set b) (add_asset_tag_raw ob ty tag)    (* 579-587 *)
  | TMetadata name v => rmap (tb_set b) (add_metadata X ob name v)          (* 589-597 *)
  | TGlobal name v => rmap (tb_set b) (add_global_state X ob name v)        (* 599-607 *)
  | TInput o st => add_input b o st
  | TOwnedDet name seal st =>                                               (* 645-653, 1041-1057 *)
      rmap (tb_set b) (named X name (fun ty => add_owned_raw X ob ty seal st))
  | TOwnedRaw ty seal st => tb_add_owned_raw X b ty seal st
  | TRights name seal =>                                                    (* 669-676, 1089-1101 *)
      rmap (tb_set b) (named X name (fun ty => add_rights_raw X ob ty seal))
  | TFungibleDefault seal v random =>                                       (* 678-685 *)
      let! name := default_assignment X b in rmap (tb_set b) (add_fungible_state X ob name seal v random)
  | TFungibleDefaultDet seal v bl =>                                        (* 687-695 *)
      let! name := default_assignment X b in tb_add_fungible_det X b name seal v bl
  | TFungible name seal v random =>                                         (* 697-705 *)
      rmap (tb_set b) (add_fungible_state X ob name seal v random)
  | TFungibleDet name seal v bl => tb_add_fungible_det X b name seal v bl
  | TFungibleRaw ty seal v bl => tb_add_fungible_raw X b ty seal v bl
  | TData name seal v random => rmap (tb_set b) (add_data X ob name seal v random)   (* 739-747 *)
  | TDataDet name seal v salt =>                                            (* 749-757, 1215-1233 *)
      rmap (tb_set b) (named X name (fun ty => add_data_raw X ob ty seal (v, salt)))
  | TDataRaw ty seal v salt => tb_add_data_raw X b ty seal v salt
  | TDataDefault seal v random =>                                           (* 771-778 *)
      let! name := default_assignment X b in rmap (tb_set b) (add_data X ob name seal v random)
  | TAttachment name seal file random | TAttachmentDet name seal file random =>      (* 780-798, 1258-1301 *)
      rmap (tb_set b) (named X name (fun ty => add_attachment_raw X ob ty seal (file, random)))
  end.

(** 800 ([has_inputs]) *)
Definition has_inputs (b : TrBuilder) : bool := match tb_inputs b with [] => false | _ => true end.

(** 802-822 ([complete_transition]) *)
Definition complete_transition (P : Pedersen) (order : list BSeal -> list BSeal) (b : TrBuilder) : result BuilderError Operation :=
  let! assigns := complete P order (tb_inputs b) (tb_builder b) in
  Ok {| op_kind := OpTransition; op_head := 0; op_contract := tb_contract b; op_ty := tb_type b; op_nonce := tb_nonce b;
        op_meta := []; op_globals := ob_global (tb_builder b); op_inputs := mkeys (tb_inputs b); op_redeemed := [];
        op_assigns := assigns; op_valencies := [] |}.

(** ** Contracts, 140-431 *)

(** 141-147 ([ContractBuilder]), without the scripts; there is one alternative chain *)
Record CtBuilder := { cb_builder : OpBuilder; cb_testnet : bool; cb_liquid : bool; cb_issuer : N }.

(** 150-182 ([with], [deterministic]) *)
Definition cb_new (issuer : N) : CtBuilder := {| cb_builder := ob_new; cb_testnet := true; cb_liquid := false; cb_issuer := issuer |}.
Definition cb_set (b : CtBuilder) (ob : OpBuilder) : CtBuilder :=
  {| cb_builder := ob; cb_testnet := cb_testnet b; cb_liquid := cb_liquid b; cb_issuer := cb_issuer b |}.

(** src/containers/seal.rs 122-129 ([BuilderSeal::layer1]) *)
Definition bseal_layer (X : BuildCtx) (s : BSeal) : Layer1 :=
  match s with BRevealed s => s_layer s | BConcealed c => bc_layer X c end.
(** 191-202 ([has_layer1], [check_layer1]) *)
Definition has_layer1 (b : CtBuilder) (l : Layer1) : bool := match l with Bitcoin => true | Liquid => cb_liquid b end.
Definition check_layer1 (b : CtBuilder) (l : Layer1) : result BuilderError unit :=
  if has_layer1 b l then Ok tt else Err (InvalidLayer1 l).

Inductive CCall :=
| CMainnet | CLiquid
| CAssetTag (name tag : N) | CMetadata (name : N) (v : option N) | CGlobal (name : N) (v : option N)
| COwnedDet (name : N) (seal : BSeal) (st : RState) | CRights (name : N) (seal : BSeal)
| CFungible (name : N) (seal : BSeal) (v random tag : N) | CFungibleDet (name : N) (seal : BSeal) (v blinding tag : N)
| CData (name : N) (seal : BSeal) (v : option N) (random : N) | CDataDet (name : N) (seal : BSeal) (v salt : N)
| CAttachment (name : N) (seal : BSeal) (file random : N) | CAttachmentDet (name : N) (seal : BSeal) (file salt : N).

Definition c_call (X : BuildCtx) (b : CtBuilder) (c : CCall) : result BuilderError CtBuilder :=
  let ob := cb_builder b in
  match c with
  | CMainnet => Ok {| cb_builder := ob; cb_testnet := false; cb_liquid := cb_liquid b; cb_issuer := cb_issuer b |}   (* 186-189 *)
  | CLiquid => Ok {| cb_builder := ob; cb_testnet := cb_testnet b; cb_liquid := true; cb_issuer := cb_issuer b |}    (* 204-209 *)
  | CAssetTag name tag => rmap (cb_set b) (add_asset_tag X ob name tag)     (* 216-224 *)
  | CMetadata name v => rmap (cb_set b) (add_metadata X ob name v)          (* 244-252 *)
  | CGlobal name v => rmap (cb_set b) (add_global_state X ob name v)        (* 254-262 *)
  | COwnedDet name seal st =>                                               (* 264-274 *)
      let! _ := check_layer1 b (bseal_layer X seal) in
      rmap (cb_set b) (named X name (fun ty => add_owned_raw X ob ty seal st))
  | CRights name seal =>                                                    (* 276-285 *)
      let! _ := check_layer1 b (bseal_layer X seal) in
      rmap (cb_set b) (named X name (fun ty => add_rights_raw X ob ty seal))
  | CFungible name seal v random tag =>                                     (* 287-299 *)
      let! _ := check_layer1 b (bseal_layer X seal) in
      let! r := init_asset_tag X ob name tag in
      rmap (cb_set b) (add_fungible_state X (fst r) name seal v random)
  | CFungibleDet name seal v bl tag =>                                      (* 301-315 *)
      let! _ := check_layer1 b (bseal_layer X seal) in
      let! r := init_asset_tag X ob name tag in
      rmap (cb_set b) (named X name (fun ty =>
        add_fungible_raw X (fst r) ty seal {| rv_value := v; rv_blinding := bl; rv_tag := snd r |}))
  | CData name seal v random =>                                             (* 317-327 *)
      let! _ := check_layer1 b (bseal_layer X seal) in
      rmap (cb_set b) (add_data X ob name seal v random)
  | CDataDet name seal v salt =>                                            (* 329-339 *)
      let! _ := check_layer1 b (bseal_layer X seal) in
      rmap (cb_set b) (named X name (fun ty => add_data_raw X ob ty seal (v, salt)))
  | CAttachment name seal file random | CAttachmentDet name seal file random =>      (* 341-363 *)
      let! _ := check_layer1 b (bseal_layer X seal) in
      rmap (cb_set b) (named X name (fun ty => add_attachment_raw X ob ty seal (file, random)))
  end.

(** The parts of [Genesis] which Core.v keeps in the opaque [op_head] *)
Record GenesisHead := { gh_timestamp : Z; gh_testnet : bool; gh_liquid : bool; gh_tags : omap N N; gh_issuer : N }.

(** 384-430 ([issue_contract_raw]): the genesis with its head.  The schema id of a genesis is
    its [op_ty], as in Core.v; [head_no] numbers the heads.  The contract made of it is
    validated in the end, which is [valid] here. *)
Definition issue_contract (P : Pedersen) (order : list BSeal -> list BSeal) (head_no : GenesisHead -> N) (schema_id : N)
  (valid : GenesisHead -> Operation -> bool) (timestamp : Z) (b : CtBuilder) : result BuilderError (GenesisHead * Operation) :=
  let! assigns := complete P order [] (cb_builder b) in
  let head := {| gh_timestamp := timestamp; gh_testnet := cb_testnet b; gh_liquid := cb_liquid b;
                 gh_tags := ob_tags (cb_builder b); gh_issuer := cb_issuer b |} in
  let genesis := {| op_kind := OpGenesis; op_head := head_no head; op_contract := 0; op_ty := schema_id; op_nonce := 0;
                    op_meta := []; op_globals := ob_global (cb_builder b); op_inputs := []; op_redeemed := [];
                    op_assigns := assigns; op_valencies := [] |} in
  if valid head genesis then Ok (head, genesis) else Err ContractInconsistent.
