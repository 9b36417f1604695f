(** * The source text of an interface: src/interface/contractum.rs

    What [Iface::display] prints.  Names are texts here (in [IfaceModel] they are numbers); the
    ordered maps and sets are the lists of their entries in order. *)
From Coq Require Import Ascii String.
From Verif Require Import Base Str IfaceModel.
Local Open Scope N_scope.

Definition tab : ascii := ascii_of_N 9.
Definition nl : ascii := ascii_of_N 10.

(** rgb-core [Occurrences] as it is written *)
Inductive Occurrences :=
| Once | NoneOrOnce | NoneOrMore | OnceOrMore | NoneOrUpTo (to : N) | OnceOrUpTo (to : N)
| Exactly (v : N) | Range (from to : N).

(** iface.rs 284-333: what the three kinds of operations have in common, contractum.rs 59-97
    ([OpIfaceDisplay]); [O] is how occurrences are given *)
Record SrcOp {O : Type} := {
  so_modifier : Modifier; so_metadata : list str; so_globals : list (str * O); so_assigns : list (str * O);
  so_valencies : list str; so_errors : list str
}.
Arguments SrcOp : clear implicits.
(** iface.rs 316-333 ([TransitionIface]) *)
Record SrcTransition {O : Type} := {
  st_op : SrcOp O; st_optional : bool; st_inputs : list (str * O); st_default : option str
}.
Arguments SrcTransition : clear implicits.
(** iface.rs 297-314 ([ExtensionIface]) *)
Record SrcExtension {O : Type} := {
  se_op : SrcOp O; se_optional : bool; se_redeems : list str; se_default : option str
}.
Arguments SrcExtension : clear implicits.
(** mod.rs 60-67 ([VerNo]) *)
Inductive VerNo := V0 | V1.
(** iface.rs 384-399 ([Iface]); interfaces and types are known by numbers standing for their ids;
    a valency is its [required] *)
Record SrcIface {O : Type} := {
  sf_version : VerNo; sf_name : str; sf_inherits : list N; sf_timestamp : Z;
  sf_metadata : list (str * N); sf_globals : list (str * GlobalIface);
  sf_assigns : list (str * AssignIface); sf_valencies : list (str * bool);
  sf_genesis : SrcOp O; sf_transitions : list (str * SrcTransition O);
  sf_extensions : list (str * SrcExtension O); sf_default : option str;
  sf_errors : list (str * str); sf_developer : str
}.
Arguments SrcIface : clear implicits.

(** What the text is made with: the names known for interfaces and types, and the texts of ids
    ([{}] and [{:-}] of baid64), printed by other crates; [se_anonymous] is the identity of which
    [is_anonymous] holds. *)
Record SrcEnv := {
  sv_externals : N -> option str; sv_types : N -> option str;
  sv_iface_bare : N -> str; sv_sem : N -> str; sv_sem_bare : N -> str; sv_anonymous : str
}.

(** The text of an i64 *)
Definition int_text (z : Z) : str :=
  (if z <? 0 then lit "-" else [])%Z ++ dec_print (Z.abs_N z).

(** contractum.rs 45-54 *)
Definition occ_text (o : Occurrences) : str :=
  match o with
  | Once => []
  | NoneOrOnce => lit "(?)"
  | NoneOrMore => lit "(*)"
  | OnceOrMore => lit "(+)"
  | NoneOrUpTo to => lit "(.." ++ dec_print to ++ lit ")"
  | OnceOrUpTo to => lit "(1.." ++ dec_print to ++ lit ")"
  | Exactly v => lit "(" ++ dec_print v ++ lit ")"
  | Range a b => lit "(" ++ dec_print a ++ lit ".." ++ dec_print b ++ lit ")"
  end.

(** The loops over names which write ", " before all but the first: contractum.rs 102-107,
    113-118, 126-131, 323-328 *)
Definition names_text (l : list str) : str := join (lit ", ") l.
(** contractum.rs 37-57 ([ArgMapDisplay]) *)
Definition args_text (l : list (str * Occurrences)) : str :=
  join (lit ", ") (map (fun p => fst p ++ occ_text (snd p)) l).

(** What is printed only when there is something *)
Definition unless_empty {A} (l : list A) (s : str) : str := match l with [] => [] | _ => s end.

(** contractum.rs 99-140 ([OpIfaceDisplay]) *)
Definition op_text (o : SrcOp Occurrences) : str :=
  unless_empty (so_errors o) ([tab; tab] ++ lit "errors: " ++ names_text (so_errors o) ++ [nl]) ++
  unless_empty (so_metadata o) ([tab; tab] ++ lit "meta: " ++ names_text (so_metadata o) ++ [nl]) ++
  unless_empty (so_globals o) ([tab; tab] ++ lit "globals: " ++ args_text (so_globals o) ++ [nl]) ++
  unless_empty (so_valencies o) ([tab; tab] ++ lit "valencies: " ++ names_text (so_valencies o) ++ [nl]) ++
  unless_empty (so_assigns o) ([tab; tab] ++ lit "assigns: " ++ args_text (so_assigns o) ++ [nl]).

(** contractum.rs 164-171 ([sugar]) *)
Definition sugar (required multiple : bool) : str :=
  match required, multiple with
  | true, true => lit "(+)"
  | false, false => lit "(?)"
  | false, true => lit "(*)"
  | true, false => []
  end.

(** contractum.rs 172-177 ([resolve]) *)
Definition resolve (v : SrcEnv) (id : N) : str :=
  match sv_types v id with
  | Some fqn => fqn
  | None => sv_sem_bare v id ++ lit " -- type name unknown"
  end.

(** contractum.rs 178-213 ([opsugar]) *)
Definition modifier_text (m : Modifier) : str :=
  match m with MFinal => lit "final" | MAbstract => lit "abstract" | MOverride => lit "override" end.
Definition opsugar (pred : str) (name : option str) (modifier : Modifier) (optional default : bool) : str :=
  let modifiers := (if optional then [] else [lit "required"]) ++ (if default then [lit "default"] else []) ++
                   [modifier_text modifier] in
  [tab] ++ pred ++ match name with Some n => lit " " ++ n | None => [] end ++
  unless_empty modifiers (lit ": ") ++ names_text modifiers ++ [nl].

(** contractum.rs 222-234: a parent without a known name is followed by the end of a line *)
Fixpoint inherits_text (v : SrcEnv) (first : bool) (l : list N) : str :=
  match l with
  | [] => []
  | id :: l => (if first then [] else lit ", ") ++
               match sv_externals v id with Some name => name | None => sv_iface_bare v id ++ [nl] end ++
               inherits_text v false l
  end.

Definition is_default (f : option str) (name : str) : bool :=
  match f with Some d => streqb d name | None => false end.

(** contractum.rs 214-234 *)
Definition head_text (v : SrcEnv) (id : str) (f : SrcIface Occurrences) : str :=
  lit "@version(" ++ match sf_version f with V0 => lit "0" | V1 => lit "1" end ++ lit ")" ++ [nl] ++
  lit "@id(" ++ id ++ lit ")" ++ [nl] ++
  (if streqb (sf_developer f) (sv_anonymous v) then [] else lit "@developer(""" ++ sf_developer f ++ lit """)" ++ [nl]) ++
  lit "@timestamp(" ++ int_text (sf_timestamp f) ++ lit ")" ++ [nl] ++
  lit "interface " ++ sf_name f ++
  unless_empty (sf_inherits f) (lit ": " ++ inherits_text v true (sf_inherits f)) ++ [nl].

(** contractum.rs 236-245 *)
Definition metadata_text (v : SrcEnv) (p : str * N) : str :=
  [tab] ++ lit "meta " ++ fst p ++ lit ": " ++
  match sv_types v (snd p) with Some fqn => fqn | None => sv_sem v (snd p) ++ lit " -- type name is unknown" end ++ [nl].
(** contractum.rs 247-256 *)
Definition global_text (v : SrcEnv) (p : str * GlobalIface) : str :=
  [tab] ++ lit "global " ++ fst p ++ sugar (gi_required (snd p)) (gi_multiple (snd p)) ++ lit ": " ++
  match gi_sem (snd p) with Some id => resolve v id | None => lit "Any" end ++ [nl].
(** contractum.rs 259-277 *)
Definition assign_text (v : SrcEnv) (p : str * AssignIface) : str :=
  [tab] ++ (if ai_public (snd p) then lit "public " else lit "owned ") ++ fst p ++
  sugar (ai_required (snd p)) (ai_multiple (snd p)) ++ lit ": " ++
  match ai_state (snd p) with
  | OiAny => lit "AnyType" | OiAmount => lit "Zk64" | OiAnyData => lit "Any"
  | OiAnyAttach => lit "AnyAttachment" | OiRights => lit "Rights" | OiData id => resolve v id
  end ++ [nl].
(** contractum.rs 282-288 *)
Definition valency_text (p : str * bool) : str :=
  [tab] ++ lit "valency " ++ fst p ++ (if snd p then [] else lit "(?)") ++ [nl].
(** contractum.rs 293-296 *)
Definition error_text (p : str * str) : str :=
  [tab] ++ lit "error " ++ fst p ++ [nl] ++ [tab; tab] ++ lit """" ++ snd p ++ lit """" ++ [nl].
Definition default_text (d : option str) : str :=
  match d with Some d => [tab; tab] ++ lit "default: " ++ d ++ [nl] | None => [] end.
(** contractum.rs 305-319 *)
Definition transition_text (default : option str) (p : str * SrcTransition Occurrences) : str :=
  let t := snd p in
  opsugar (lit "transition") (Some (fst p)) (so_modifier (st_op t)) (st_optional t) (is_default default (fst p)) ++
  op_text (st_op t) ++ default_text (st_default t) ++
  [tab; tab] ++ lit "inputs: " ++ args_text (st_inputs t) ++ [nl] ++ [nl].
(** contractum.rs 321-342 *)
Definition extension_text (default : option str) (p : str * SrcExtension Occurrences) : str :=
  let e := snd p in
  opsugar (lit "extension") (Some (fst p)) (so_modifier (se_op e)) (se_optional e) (is_default default (fst p)) ++
  op_text (se_op e) ++ default_text (se_default e) ++
  [tab; tab] ++ lit "redeems: " ++ names_text (se_redeems e) ++ [nl] ++ [nl].

(** contractum.rs 236-345 *)
Definition body_text (v : SrcEnv) (f : SrcIface Occurrences) : str :=
  flat_map (metadata_text v) (sf_metadata f) ++ unless_empty (sf_metadata f) [nl] ++
  flat_map (global_text v) (sf_globals f) ++ [nl] ++
  flat_map (assign_text v) (sf_assigns f) ++ unless_empty (sf_assigns f) [nl] ++
  flat_map valency_text (sf_valencies f) ++ unless_empty (sf_valencies f) [nl] ++
  flat_map error_text (sf_errors f) ++ unless_empty (sf_errors f) [nl] ++
  opsugar (lit "genesis") None (so_modifier (sf_genesis f)) true false ++ op_text (sf_genesis f) ++ [nl] ++
  flat_map (transition_text (sf_default f)) (sf_transitions f) ++
  flat_map (extension_text (sf_default f)) (sf_extensions f).

(** contractum.rs 162-346 ([IfaceDisplay]); [id] is the text of the interface id, which commits to
    the interface *)
Definition source (v : SrcEnv) (id : str) (f : SrcIface Occurrences) : str :=
  head_text v id f ++ body_text v f.
