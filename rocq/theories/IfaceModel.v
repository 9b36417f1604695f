(** * Schemata, interfaces and implementations in full: src/interface/{iface,iimpl,inheritance}.rs

    Names of fields, errors and interfaces are numbers here; the code compares and sorts them
    as text.  The tables are ordered maps and sets of at most 255 elements. *)
From Verif Require Import Base.
Local Open Scope N_scope.

(** ** Schemata (rgb-core) *)

(** rgb-core [Occurrences]: how many times something may be used.  Different ways of writing
    one range are one value here; the code distinguishes them. *)
Record Occ := { oc_min : N; oc_max : N }.
Definition occ_eqb (a b : Occ) : bool := (oc_min a =? oc_min b) && (oc_max a =? oc_max b).

(** rgb-core [GlobalStateSchema] *)
Record GlobalSchema := { gs_sem : N; gs_max : N }.
Definition gschema_eqb (a b : GlobalSchema) : bool := (gs_sem a =? gs_sem b) && (gs_max a =? gs_max b).

(** rgb-core [OwnedStateSchema]; there is one fungible type, 64-bit unsigned *)
Inductive OwnedSchema := OsDeclarative | OsFungible | OsStructured (sem : N) | OsAttachment (media : N).
Definition owned_eqb (a b : OwnedSchema) : bool :=
  match a, b with
  | OsDeclarative, OsDeclarative | OsFungible, OsFungible => true
  | OsStructured x, OsStructured y | OsAttachment x, OsAttachment y => x =? y
  | _, _ => false
  end.

(** rgb-core [GenesisSchema], [TransitionSchema], [ExtensionSchema]: only transitions have
    inputs, only extensions have redeems; for the others they are empty here. *)
Record OpSchema := {
  os_metadata : oset N; os_globals : omap N Occ; os_inputs : omap N Occ; os_redeems : oset N;
  os_assigns : omap N Occ; os_valencies : oset N
}.

(** rgb-core [Schema], without version, flags, scripts and default assignment *)
Record FullSchema := {
  fs_meta : omap N N; fs_globals : omap N GlobalSchema; fs_owned : omap N OwnedSchema; fs_valencies : oset N;
  fs_genesis : OpSchema; fs_transitions : omap N OpSchema; fs_extensions : omap N OpSchema
}.

(** rgb-core [OpFullType] *)
Inductive OpFullType := FtGenesis | FtTransition (t : N) | FtExtension (t : N).

(** ** Schema inheritance, inheritance.rs 33-221 *)

(** inheritance.rs 40-74 ([InheritanceFailure]) *)
Inductive InheritanceFailure :=
| GlobalStateMismatch (t : N) | AssignmentTypeMismatch (t : N) | ValencyTypeMismatch (t : N)
| TransitionTypeMismatch (t : N) | ExtensionTypeMismatch (t : N)
| OpGlobalStateMismatch (op : OpFullType) (t : N) | OpInputMismatch (op : OpFullType) (t : N)
| OpRedeemMismatch (op : OpFullType) (t : N) | OpAssignmentsMismatch (op : OpFullType) (t : N)
| OpValencyMismatch (op : OpFullType) (t : N).

(** The entries of a table which are not equal in the other, as in 85-101, 163-200 *)
Definition unequal {V E} (eqb : V -> V -> bool) (root : omap N V) (err : N -> E) (own : omap N V) : list E :=
  flat_map (fun p => match mget (fst p) root with
                     | None => [err (fst p)]
                     | Some v => if eqb (snd p) v then [] else [err (fst p)]
                     end) own.
(** The elements of a set which are not in the other, as in 103-107, 202-215 *)
Definition missing {E} (root : oset N) (err : N -> E) (own : oset N) : list E :=
  flat_map (fun x => if smem x root then [] else [err x]) own.

(** inheritance.rs 154-221 ([check_schema_op_inheritance]) *)
Definition op_inheritance (ty : OpFullType) (own root : OpSchema) : list InheritanceFailure :=
  unequal occ_eqb (os_globals root) (OpGlobalStateMismatch ty) (os_globals own) ++
  unequal occ_eqb (os_inputs root) (OpInputMismatch ty) (os_inputs own) ++
  unequal occ_eqb (os_assigns root) (OpAssignmentsMismatch ty) (os_assigns own) ++
  missing (os_redeems root) (OpRedeemMismatch ty) (os_redeems own) ++
  missing (os_valencies root) (OpValencyMismatch ty) (os_valencies own).

(** inheritance.rs 119-140 *)
Definition ops_inheritance (ty : N -> OpFullType) (err : N -> InheritanceFailure) (root own : omap N OpSchema) : list InheritanceFailure :=
  flat_map (fun p => match mget (fst p) root with
                     | Some r => op_inheritance (ty (fst p)) (snd p) r
                     | None => [err (fst p)]
                     end) own.

(** inheritance.rs 80-146 ([Schema::check_inheritance]) *)
Definition check_inheritance (own root : FullSchema) : result (list InheritanceFailure) unit :=
  let status :=
    unequal gschema_eqb (fs_globals root) GlobalStateMismatch (fs_globals own) ++
    unequal owned_eqb (fs_owned root) AssignmentTypeMismatch (fs_owned own) ++
    missing (fs_valencies root) ValencyTypeMismatch (fs_valencies own) ++
    op_inheritance FtGenesis (fs_genesis own) (fs_genesis root) ++
    ops_inheritance FtTransition TransitionTypeMismatch (fs_transitions root) (fs_transitions own) ++
    ops_inheritance FtExtension ExtensionTypeMismatch (fs_extensions root) (fs_extensions own) in
  match status with [] => Ok tt | _ => Err status end.

(** ** Interfaces, iface.rs *)

(** iface.rs 156-163 ([GlobalIface]) *)
Record GlobalIface := { gi_sem : option N; gi_required : bool; gi_multiple : bool }.
(** iface.rs 237-255 ([OwnedIface]) *)
Inductive OwnedIface := OiAny | OiRights | OiAmount | OiAnyData | OiAnyAttach | OiData (sem : N).
Definition oiface_eqb (a b : OwnedIface) : bool :=
  match a, b with
  | OiAny, OiAny | OiRights, OiRights | OiAmount, OiAmount | OiAnyData, OiAnyData | OiAnyAttach, OiAnyAttach => true
  | OiData x, OiData y => x =? y
  | _, _ => false
  end.
(** iface.rs 202-208 ([AssignIface]) *)
Record AssignIface := { ai_state : OwnedIface; ai_public : bool; ai_required : bool; ai_multiple : bool }.
(** iface.rs 269-274 ([Modifier]) *)
Inductive Modifier := MAbstract | MOverride | MFinal.
(** iface.rs 284-333 ([GenesisIface], [ExtensionIface], [TransitionIface]).  One record: only
    transitions have inputs, only extensions redeems, and genesis has no default assignment
    and is not optional; such fields are empty and not looked at here. *)
Record OpIface := {
  oi_modifier : Modifier; oi_optional : bool; oi_metadata : oset N; oi_globals : omap N Occ;
  oi_inputs : omap N Occ; oi_assigns : omap N Occ; oi_redeems : oset N; oi_valencies : oset N;
  oi_errors : oset N; oi_default : option N
}.
(** iface.rs 384-399 ([Iface]), without version and developer; a valency is its [required] *)
Record FullIface := {
  ff_name : N; ff_inherits : list N; ff_timestamp : Z;
  ff_metadata : omap N N; ff_globals : omap N GlobalIface; ff_assigns : omap N AssignIface; ff_valencies : omap N bool;
  ff_genesis : OpIface; ff_transitions : omap N OpIface; ff_extensions : omap N OpIface;
  ff_default : option N; ff_errors : omap N N
}.

(** iface.rs 624-632 ([OpName]) *)
Inductive OpName := GenesisOp | TransitionOp (n : N) | ExtensionOp (n : N).

(** iface.rs 654-694 ([IfaceInconsistency]) *)
Inductive IfaceInconsistency :=
| InvalidTimestamp (t : Z) | FutureTimestamp (t : Z)
| UnknownGlobal (op : OpName) (n : N) | UnknownValency (op : OpName) (n : N) | UnknownRedeem (op : OpName) (n : N)
| UnknownAssignment (op : OpName) (n : N) | UnknownInput (op : OpName) (n : N) | UnknownError (op : OpName) (n : N)
| UnknownDefaultAssignment (op : OpName) (n : N) | UnknownDefaultOp (n : N) | UnknownMetadata (op : OpName) (n : N)
| MultipleGlobal (op : OpName) (n : N) | MultipleAssignment (op : OpName) (n : N) | MultipleInputs (op : OpName) (n : N)
| RepeatedOperationName (n : N) | RequiredGlobalAbsent (n : N) | RequiredAssignmentAbsent (n : N) | RequiredValencyAbsent (n : N).

(** iface.rs 457-471 *)
Definition proc_globals (f : FullIface) (op : OpName) (m : omap N Occ) : list IfaceInconsistency :=
  flat_map (fun p => match mget (fst p) (ff_globals f) with
                     | Some g => if (1 <? oc_min (snd p)) && negb (gi_multiple g) then [MultipleGlobal op (fst p)] else []
                     | None => [UnknownGlobal op (fst p)]
                     end) m.
(** iface.rs 472-489; 542-553 for the inputs of a transition *)
Definition proc_assigns (f : FullIface) (multiple unknown : N -> IfaceInconsistency) (m : omap N Occ) : list IfaceInconsistency :=
  flat_map (fun p => match mget (fst p) (ff_assigns f) with
                     | Some a => if (1 <? oc_min (snd p)) && negb (ai_multiple a) then [multiple (fst p)] else []
                     | None => [unknown (fst p)]
                     end) m.
(** iface.rs 490-507, 522-526: names not in a table *)
Definition absent {V} (m : omap N V) (err : N -> IfaceInconsistency) (names : list N) : list IfaceInconsistency :=
  flat_map (fun n => if mhas n m then [] else [err n]) names.
(** What is checked for every operation *)
Definition proc_op (f : FullIface) (op : OpName) (o : OpIface) : list IfaceInconsistency :=
  absent (ff_metadata f) (UnknownMetadata op) (oi_metadata o) ++
  proc_globals f op (oi_globals o) ++
  proc_assigns f (MultipleAssignment op) (UnknownAssignment op) (oi_assigns o) ++
  absent (ff_valencies f) (UnknownValency op) (oi_valencies o) ++
  absent (ff_errors f) (UnknownError op) (oi_errors o).
(** iface.rs 554-559, 582-587 *)
Definition proc_default (op : OpName) (o : OpIface) : list IfaceInconsistency :=
  match oi_default o with
  | Some n => if mhas n (oi_assigns o) then [] else [UnknownDefaultAssignment op n]
  | None => []
  end.

(** iface.rs 456-621 ([Iface::check]).  [now] and which timestamps are dates at all
    ([timestamp_opt]) are given. *)
Definition iface_check (now : Z) (is_date : Z -> bool) (f : FullIface) : result (list IfaceInconsistency) unit :=
  let errors :=
    (if is_date (ff_timestamp f) then if (now <? ff_timestamp f)%Z then [FutureTimestamp (ff_timestamp f)] else []
     else [InvalidTimestamp (ff_timestamp f)]) ++
    proc_op f GenesisOp (ff_genesis f) ++
    flat_map (fun p => let op := TransitionOp (fst p) in
                proc_op f op (snd p) ++
                proc_assigns f (MultipleInputs op) (UnknownInput op) (oi_inputs (snd p)) ++
                proc_default op (snd p)) (ff_transitions f) ++
    flat_map (fun p => let op := ExtensionOp (fst p) in
                proc_op f op (snd p) ++
                absent (ff_valencies f) (UnknownRedeem op) (oi_redeems (snd p)) ++
                proc_default op (snd p)) (ff_extensions f) ++
    flat_map (fun n => if mhas n (ff_extensions f) then [RepeatedOperationName n] else []) (mkeys (ff_transitions f)) ++
    (match ff_default f with
     | Some n => if mhas n (ff_transitions f) || mhas n (ff_extensions f) then [] else [UnknownDefaultOp n]
     | None => []
     end) ++
    flat_map (fun p => if gi_required (snd p) && negb (mhas (fst p) (oi_globals (ff_genesis f))) then [RequiredGlobalAbsent (fst p)] else []) (ff_globals f) ++
    flat_map (fun p => if ai_required (snd p) && negb (mhas (fst p) (oi_assigns (ff_genesis f))) then [RequiredAssignmentAbsent (fst p)] else []) (ff_assigns f) ++
    flat_map (fun p => if snd p && negb (smem (fst p) (oi_valencies (ff_genesis f))) then [RequiredValencyAbsent (fst p)] else []) (ff_valencies f) in
  match errors with [] => Ok tt | _ => Err errors end.

(** iface.rs 432-442 ([Iface::types]) *)
Definition iface_types (f : FullIface) : list N :=
  mvals (ff_metadata f) ++ filter_map gi_sem (mvals (ff_globals f)) ++
  filter_map (fun a => match ai_state a with OiData x => Some x | _ => None end) (mvals (ff_assigns f)).

(** ** Interface extension, inheritance.rs 223-678 *)

(** What is counted in the errors of an operation ([&'static str]) *)
Inductive OpPart := PMetadata | PGlobal | PAssignment | PInput | PValency | PError.

(** inheritance.rs 234-274 ([ExtensionError]) *)
Inductive ExtensionError :=
| MetaOverflow | GlobalOverflow | GlobalType (n : N) | GlobalOcc (n : N)
| AssignmentOverflow | AssignmentType (n : N) | AssignmentOcc (n : N) | AssignmentPublic (n : N)
| ValencyOverflow | ValencyOcc (n : N) | TransitionOverflow | ErrorOverflow
| DefaultOverride | OpFinal (op : OpName) | OpNoOverride (op : OpName) | OpOverflow (op : OpName) (p : OpPart)
| OpDefaultOverride (op : OpName) | OpOcc (op : OpName) (p : OpPart) (n : N) | InheritanceOverflow.

(** 276-286 ([OwnedIface::is_superset]) *)
Definition is_superset (a b : OwnedIface) : bool :=
  match a with
  | OiAny => true
  | OiAnyData => match b with OiData _ => true | _ => oiface_eqb a b end
  | _ => oiface_eqb a b
  end.
(** 288-293 ([Modifier]) *)
Definition is_final (m : Modifier) : bool := match m with MFinal => true | _ => false end.
Definition can_be_overridden_by (a b : Modifier) : bool :=
  match a, b with
  | MAbstract, MOverride | MAbstract, MFinal | MOverride, MOverride | MOverride, MFinal => true
  | _, _ => false
  end.

(** The loops over tables (365-437, 522-549): an entry which is not there is inserted, and
    the loop ends when there is no room; an entry which is there is replaced unless [bad]
    gives an error. *)
Fixpoint ext_map {V} (bad : N -> V -> V -> option ExtensionError) (full : ExtensionError)
  (own : omap N V) (ext : list (N * V)) : omap N V * list ExtensionError :=
  match ext with
  | [] => (own, [])
  | (n, e) :: rest =>
      match mget n own with
      | None => if len own <? U8MAX then ext_map bad full (minsert n e own) rest else (own, [full])
      | Some orig =>
          match bad n orig e with
          | Some err => let (r, errs) := ext_map bad full own rest in (r, err :: errs)
          | None => ext_map bad full (minsert n e own) rest
          end
      end
  end.
(** [Confined::extend] of a map: fails when the map is full, also when the key is there *)
Fixpoint map_extend {V} (full : ExtensionError) (own : omap N V) (ext : list (N * V)) : omap N V * list ExtensionError :=
  match ext with
  | [] => (own, [])
  | (n, e) :: rest => if len own <? U8MAX then map_extend full (minsert n e own) rest else (own, [full])
  end.
(** 551-567 ([check_presence]), and [Confined::extend] of a set *)
Fixpoint set_extend (full : ExtensionError) (own : oset N) (ext : list N) : oset N * list ExtensionError :=
  match ext with
  | [] => (own, [])
  | n :: rest => if len own <? U8MAX then set_extend full (sinsert n own) rest else (own, [full])
  end.
(** 522-549 ([check_occs]) *)
Definition check_occs (op : OpName) (part : OpPart) : omap N Occ -> list (N * Occ) -> omap N Occ * list ExtensionError :=
  ext_map (fun n orig occ => if oc_min occ <? oc_min orig then Some (OpOcc op part n) else None) (OpOverflow op part).

(** 574-578, 602-607, 643-648 *)
Definition modifier_errors (op : OpName) (a b : Modifier) : list ExtensionError :=
  if is_final a then [OpFinal op] else if can_be_overridden_by a b then [] else [OpNoOverride op].
(** 621-630, 662-671 *)
Definition ext_default (err : ExtensionError) (own ext : option N) : option N * list ExtensionError :=
  match ext with
  | None => (own, [])
  | Some x => match own with
              | Some y => if y =? x then (ext, []) else (own, [err])
              | None => (ext, [])
              end
  end.

(** 569-596 ([GenesisIface::extended]) *)
Definition genesis_extended (own ext : OpIface) : result (list ExtensionError) OpIface :=
  let op := GenesisOp in
  let '(metadata, e1) := set_extend (OpOverflow op PMetadata) (oi_metadata own) (oi_metadata ext) in
  let '(globals, e2) := check_occs op PGlobal (oi_globals own) (oi_globals ext) in
  let '(assigns, e3) := check_occs op PAssignment (oi_assigns own) (oi_assigns ext) in
  let '(valencies, e4) := set_extend (OpOverflow op PValency) (oi_valencies own) (oi_valencies ext) in
  let '(errs, e5) := set_extend (OpOverflow op PError) (oi_errors own) (oi_errors ext) in
  match modifier_errors op (oi_modifier own) (oi_modifier ext) ++ e1 ++ e2 ++ e3 ++ e4 ++ e5 with
  | [] => Ok {| oi_modifier := oi_modifier own; oi_optional := oi_optional own; oi_metadata := metadata;
                oi_globals := globals; oi_inputs := oi_inputs own; oi_assigns := assigns; oi_redeems := oi_redeems own;
                oi_valencies := valencies; oi_errors := errs; oi_default := oi_default own |}
  | e => Err e
  end.
(** 598-637 ([TransitionIface::extended]) *)
Definition transition_extended (n : N) (own ext : OpIface) : result (list ExtensionError) OpIface :=
  let op := TransitionOp n in
  let '(metadata, e1) := set_extend (OpOverflow op PMetadata) (oi_metadata own) (oi_metadata ext) in
  let '(globals, e2) := check_occs op PGlobal (oi_globals own) (oi_globals ext) in
  let '(assigns, e3) := check_occs op PAssignment (oi_assigns own) (oi_assigns ext) in
  let '(inputs, e4) := check_occs op PInput (oi_inputs own) (oi_inputs ext) in
  let '(valencies, e5) := set_extend (OpOverflow op PValency) (oi_valencies own) (oi_valencies ext) in
  let '(errs, e6) := set_extend (OpOverflow op PError) (oi_errors own) (oi_errors ext) in
  let '(default, e7) := ext_default (OpDefaultOverride op) (oi_default own) (oi_default ext) in
  match modifier_errors op (oi_modifier own) (oi_modifier ext) ++ e1 ++ e2 ++ e3 ++ e4 ++ e5 ++ e6 ++ e7 with
  | [] => Ok {| oi_modifier := oi_modifier own; oi_optional := oi_optional own || oi_optional ext; oi_metadata := metadata;
                oi_globals := globals; oi_inputs := inputs; oi_assigns := assigns; oi_redeems := oi_redeems own;
                oi_valencies := valencies; oi_errors := errs; oi_default := default |}
  | e => Err e
  end.
(** 639-678 ([ExtensionIface::extended]); errors call the operation a transition, and redeems
    an input *)
Definition extension_extended (n : N) (own ext : OpIface) : result (list ExtensionError) OpIface :=
  let op := TransitionOp n in
  let '(metadata, e1) := set_extend (OpOverflow op PMetadata) (oi_metadata own) (oi_metadata ext) in
  let '(globals, e2) := check_occs op PGlobal (oi_globals own) (oi_globals ext) in
  let '(assigns, e3) := check_occs op PAssignment (oi_assigns own) (oi_assigns ext) in
  let '(valencies, e4) := set_extend (OpOverflow op PValency) (oi_valencies own) (oi_valencies ext) in
  let '(redeems, e5) := set_extend (OpOverflow op PInput) (oi_redeems own) (oi_redeems ext) in
  let '(errs, e6) := set_extend (OpOverflow op PError) (oi_errors own) (oi_errors ext) in
  let '(default, e7) := ext_default (OpDefaultOverride op) (oi_default own) (oi_default ext) in
  match modifier_errors op (oi_modifier own) (oi_modifier ext) ++ e1 ++ e2 ++ e3 ++ e4 ++ e5 ++ e6 ++ e7 with
  | [] => Ok {| oi_modifier := oi_modifier own; oi_optional := oi_optional own || oi_optional ext; oi_metadata := metadata;
                oi_globals := globals; oi_inputs := oi_inputs own; oi_assigns := assigns; oi_redeems := redeems;
                oi_valencies := valencies; oi_errors := errs; oi_default := default |}
  | e => Err e
  end.

(** 446-490: the loops over operations.  An operation is taken out and, if it can be extended,
    put back. *)
Fixpoint ext_ops (extend : N -> OpIface -> OpIface -> result (list ExtensionError) OpIface)
  (own : omap N OpIface) (ext : list (N * OpIface)) : omap N OpIface * list ExtensionError :=
  match ext with
  | [] => (own, [])
  | (n, op) :: rest =>
      match mget n own with
      | None =>
          if oi_optional op then ext_ops extend own rest
          else if len own <? U8MAX then ext_ops extend (minsert n op own) rest else (own, [TransitionOverflow])
      | Some orig =>
          match extend n orig op with
          | Ok op' => ext_ops extend (minsert n op' (mremove n own)) rest
          | Err e => let (r, errs) := ext_ops extend (mremove n own) rest in (r, e ++ errs)
          | Panic => ext_ops extend (mremove n own) rest
          end
      end
  end.

(** 366-386, 388-412, 414-437 *)
Definition global_bad (n : N) (orig e : GlobalIface) : option ExtensionError :=
  if match gi_sem orig with Some x => negb (match gi_sem e with Some y => x =? y | None => false end) | None => false end
  then Some (GlobalType n)
  else if gi_required orig && negb (gi_required e) then Some (GlobalOcc n) else None.
Definition assign_bad (n : N) (orig e : AssignIface) : option ExtensionError :=
  if negb (is_superset (ai_state orig) (ai_state e)) then Some (AssignmentType n)
  else if ai_required orig && negb (ai_required e) then Some (AssignmentOcc n)
  else if ai_public orig && negb (ai_public e) then Some (AssignmentPublic n) else None.
Definition valency_bad (n : N) (orig e : bool) : option ExtensionError :=
  if orig && negb e then Some (ValencyOcc n) else None.

(** [TinyVec::push] *)
Definition vec_push (l : list N) (x : N) : option (list N) := if len l <? U8MAX then Some (l ++ [x]) else None.
Fixpoint vec_extend (l xs : list N) : option (list N) :=
  match xs with
  | [] => Some l
  | x :: r => match vec_push l x with Some l' => vec_extend l' r | None => None end
  end.
(** 505-511 *)
Definition ext_inherits (own : list N) (own_id : N) (ext : list N) (ext_id : N) : option (list N) :=
  match vec_push own own_id with
  | Some l => match vec_extend l ext with Some l' => vec_push l' ext_id | None => None end
  | None => None
  end.

(** 351-519 ([Iface::extended]); [id_of] is the commitment to an interface *)
Definition extended (id_of : FullIface -> N) (own ext : FullIface) (name : N) : result (list ExtensionError) FullIface :=
  let '(metadata, e1) := map_extend MetaOverflow (ff_metadata own) (ff_metadata ext) in
  let '(globals, e2) := ext_map global_bad GlobalOverflow (ff_globals own) (ff_globals ext) in
  let '(assigns, e3) := ext_map assign_bad AssignmentOverflow (ff_assigns own) (ff_assigns ext) in
  let '(valencies, e4) := ext_map valency_bad ValencyOverflow (ff_valencies own) (ff_valencies ext) in
  let '(genesis, e5) := match genesis_extended (ff_genesis own) (ff_genesis ext) with
                        | Ok g => (g, []) | Err e => (ff_genesis own, e) | Panic => (ff_genesis own, []) end in
  let '(transitions, e6) := ext_ops transition_extended (ff_transitions own) (ff_transitions ext) in
  let '(extensions, e7) := ext_ops extension_extended (ff_extensions own) (ff_extensions ext) in
  let '(errs, e8) := map_extend ErrorOverflow (ff_errors own) (ff_errors ext) in
  let '(default, e9) := ext_default DefaultOverride (ff_default own) (ff_default ext) in
  let '(inherits, e10) := match ext_inherits (ff_inherits own) (id_of own) (ff_inherits ext) (id_of ext) with
                          | Some l => (l, []) | None => (ff_inherits own, [InheritanceOverflow]) end in
  match e1 ++ e2 ++ e3 ++ e4 ++ e5 ++ e6 ++ e7 ++ e8 ++ e9 ++ e10 with
  | [] => Ok {| ff_name := name; ff_inherits := inherits; ff_timestamp := ff_timestamp own; ff_metadata := metadata;
                ff_globals := globals; ff_assigns := assigns; ff_valencies := valencies; ff_genesis := genesis;
                ff_transitions := transitions; ff_extensions := extensions; ff_default := default; ff_errors := errs |}
  | e => Err e
  end.

(** 313-334 ([Iface::inherit]): panics without interfaces *)
Definition inherit (id_of : FullIface -> N) (name : N) (l : list FullIface) : result (list ExtensionError) FullIface :=
  match l with
  | [] => Panic
  | f :: rest => rfold (fun f ext => extended id_of f ext name) f rest
  end.

(** ** Implementations, iimpl.rs *)

(** 219-234 ([IfaceImpl]).  The sets of named fields are sorted by id and name. *)
Record FullImpl := {
  fm_schema : N; fm_iface : N; fm_timestamp : Z;
  fm_metadata : oset (N * N); fm_globals : oset (N * N); fm_assigns : oset (N * N); fm_valencies : oset (N * N);
  fm_transitions : oset (N * N); fm_extensions : oset (N * N); fm_errors : oset (N * N)
}.

(** 240-328: lookups take the first fit *)
Definition type_of (l : oset (N * N)) (name : N) : option N :=
  option_map fst (find (fun p => snd p =? name) l).
Definition name_of (l : oset (N * N)) (id : N) : option N :=
  option_map snd (find (fun p => fst p =? id) l).

(** 331-396 ([ImplInconsistency]): by the table concerned *)
Inductive ImplTable := TMeta | TGlobal | TAssignment | TValency | TTransition | TExtension.
Inductive ImplInconsistency :=
| ImplInvalidTimestamp (t : Z) | ImplFutureTimestamp (t : Z)
| IfaceAbsentIn (t : ImplTable) (name : N)
| SchemaAbsentIn (t : ImplTable) (name ty : N)
| RepeatedIn (t : ImplTable) (name : N) (count : N)
| IfaceErrorAbsent (name : N).

(** The counters of 409-413 etc.: the first occurrence counts 0 *)
Definition count_names (l : oset (N * N)) : omap N N :=
  fold_left (fun m p => match mget (snd p) m with Some c => minsert (snd p) (c + 1) m | None => minsert (snd p) 0 m end) l [].

(** 422-441 and the five blocks like it; the order of the repeated ones is that of a
    [HashMap] in the code *)
Definition check_table (t : ImplTable) (names : list N) (in_schema : N -> bool) (l : oset (N * N)) : list ImplInconsistency :=
  flat_map (fun n => if forallb (fun p => negb (snd p =? n)) l then [IfaceAbsentIn t n] else []) names ++
  flat_map (fun p => if in_schema (fst p) then [] else [SchemaAbsentIn t (snd p) (fst p)]) l ++
  flat_map (fun p => if 1 <? snd p then [RepeatedIn t (fst p) (snd p)] else []) (count_names l).

(** 399-562 ([IfaceImpl::check]) *)
Definition impl_check (now : Z) (is_date : Z -> bool) (im : FullImpl) (f : FullIface) (s : FullSchema)
  : result (list ImplInconsistency) unit :=
  let errors :=
    (if is_date (fm_timestamp im) then if (now <? fm_timestamp im)%Z then [ImplFutureTimestamp (fm_timestamp im)] else []
     else [ImplInvalidTimestamp (fm_timestamp im)]) ++
    check_table TMeta (mkeys (ff_metadata f)) (fun t => mhas t (fs_meta s)) (fm_metadata im) ++
    check_table TGlobal (mkeys (ff_globals f)) (fun t => mhas t (fs_globals s)) (fm_globals im) ++
    check_table TAssignment (mkeys (ff_assigns f)) (fun t => mhas t (fs_owned s)) (fm_assigns im) ++
    check_table TValency (mkeys (ff_valencies f)) (fun t => smem t (fs_valencies s)) (fm_valencies im) ++
    check_table TTransition (mkeys (ff_transitions f)) (fun t => mhas t (fs_transitions s)) (fm_transitions im) ++
    check_table TExtension (mkeys (ff_extensions f)) (fun t => mhas t (fs_extensions s)) (fm_extensions im) ++
    flat_map (fun p => if mhas (snd p) (ff_errors f) then [] else [IfaceErrorAbsent (snd p)]) (fm_errors im) in
  match errors with [] => Ok tt | _ => Err errors end.

(** inheritance.rs 688-733, one table: for the names of the base interface which the parent
    has, the first field of that name; the result is a set again *)
Definition abstract_table {V W} (base : omap N V) (parent : omap N W) (l : oset (N * N)) : oset (N * N) :=
  sfrom (filter_map (fun name => find (fun p => mhas name parent && (snd p =? name)) l) (mkeys base)).

(** inheritance.rs 680-737 ([IfaceImpl::abstracted]); 711 goes through the names of the
    assignments of the base, not of its valencies *)
Definition abstracted (id_of : FullIface -> N) (im : FullImpl) (base parent : FullIface) : result unit (option FullImpl) :=
  if negb (fm_iface im =? id_of base) then Panic
  else if negb (existsb (N.eqb (id_of parent)) (ff_inherits base)) then Ok None
  else Ok (Some
    {| fm_schema := fm_schema im; fm_iface := id_of parent; fm_timestamp := fm_timestamp im;
       fm_metadata := abstract_table (ff_metadata base) (ff_metadata parent) (fm_metadata im);
       fm_globals := abstract_table (ff_globals base) (ff_globals parent) (fm_globals im);
       fm_assigns := abstract_table (ff_assigns base) (ff_assigns parent) (fm_assigns im);
       fm_valencies := abstract_table (ff_assigns base) (ff_valencies parent) (fm_valencies im);
       fm_transitions := abstract_table (ff_transitions base) (ff_transitions parent) (fm_transitions im);
       fm_extensions := abstract_table (ff_extensions base) (ff_extensions parent) (fm_extensions im);
       fm_errors := fm_errors im |}).

(** iface.rs 444-454 ([find_abstractable_impl]): the implementation of the interface itself,
    or of its last ancestor which has one *)
Definition find_abstractable {A} (impl_of : N -> option A) (id : N) (inherits : list N) : option A :=
  match impl_of id with
  | Some x => Some x
  | None => find_map impl_of (rev inherits)
  end.
