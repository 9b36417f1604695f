(** * Armored texts of consignments and kits: model

    Models src/containers/consignment.rs 381-447, src/containers/kit.rs 196-269 and
    src/containers/file.rs 91-101. *)
From Coq Require Import String.
From Verif Require Import Base Str Core ContainerModel StashModel.
Local Open Scope N_scope.

(** [ArmorHeader] of the crate ascii-armor *)
Record Header := { hd_title : str; hd_values : list str; hd_params : list (str * str) }.
(** [ArmorHeader::new] and [ArmorHeader::with] *)
Definition header (title value : str) : Header := {| hd_title := title; hd_values := [value]; hd_params := [] |}.
Definition header_with (title : str) (values : list str) : Header :=
  {| hd_title := title; hd_values := values; hd_params := [] |}.
Definition add_param (h : Header) (k v : str) : Header :=
  {| hd_title := hd_title h; hd_values := hd_values h; hd_params := hd_params h ++ [(k, v)] |}.

(** src/containers/mod.rs 67-77 *)
Definition tVersion : str := lit "Version"%string.
Definition tType : str := lit "Type"%string.
Definition tContract : str := lit "Contract"%string.
Definition tSchema : str := lit "Schema"%string.
Definition tIface : str := lit "Interface"%string.
Definition tImpl : str := lit "Implementation"%string.
Definition tTerminal : str := lit "Terminal"%string.
Definition tScript : str := lit "Alu-Lib"%string.
Definition tTypes : str := lit "Type-System"%string.

(** How ids, names and developers are printed: those of interfaces, schemata, implementations,
    supplements and libraries are texts of their own crates.  [tx_version] is the text of the
    version, which has one value.  The id of a type system is of its content. *)
Record Texts := {
  tx_version : str;
  tx_contract : N -> str;
  tx_schema_long : N -> str;
  tx_schema : N -> str;
  tx_iface : N -> str;
  tx_impl : N -> str;
  tx_suppl : SupplRec -> str;
  tx_bundle : N -> str;
  tx_types : omap N N -> str;
  tx_lib : N -> str;
  tx_name : N -> str;
  tx_schema_name : SchemaRec -> str;
  tx_schema_dev : SchemaRec -> str;
  tx_iface_dev : IfaceRec -> str;
  tx_impl_dev : ImplRec -> str
}.

Definition sTransfer : str := lit "transfer"%string.
Definition sContract : str := lit "contract"%string.

(** consignment.rs 386-410 ([armor_headers] of a consignment) *)
Definition cons_headers (H : Hashes) (T : Texts) (c : Consignment) : list Header :=
  [header tVersion (tx_version T);
   header tType (if c_transfer c then sTransfer else sContract);
   header tContract (tx_contract T (op_id H (c_genesis c)));
   header tSchema (tx_schema_long T (sch_id (c_schema c)))] ++
  (match c_ifaces c with
   | [] => []
   | l => [header_with tIface (map (fun p => tx_name T (if_name (fst p))) l)]
   end) ++
  (match c_terminals c with
   | [] => []
   | m => [header_with tTerminal (map (tx_bundle T) (mkeys m))]
   end).

(** consignment.rs 411-423 ([parse_armor_headers] of a consignment): the only effect of the
    check is that the first value of the header may be looked at *)
Definition parse_headers (c : Consignment) (headers : list Header) : result unit unit :=
  match find (fun h => streqb (hd_title h) tType) headers with
  | Some h =>
      if c_transfer c && negb (len (hd_values h) =? 1) then
        match hd_values h with
        | [] => Panic
        | v :: _ => if streqb v sTransfer then Ok tt else Ok tt
        end
      else Ok tt
  | None => Ok tt
  end.

(** kit.rs 205-219, 223-236, 240-257: the header of one item *)
Definition sId : str := lit "id"%string.
Definition sDev : str := lit "dev"%string.
Definition sSuppl : str := lit "suppl"%string.
Definition sInterface : str := lit "interface"%string.
Definition sSchemaP : str := lit "schema"%string.
Definition suppl_param (T : Texts) (suppl : list SupplRec) (ct : ContentId) (h : Header) : Header :=
  match find (fun s => keqb (su_content s) ct) suppl with
  | Some s => add_param h sSuppl (tx_suppl T s)
  | None => h
  end.
Definition schema_header (T : Texts) (k : Kit) (s : SchemaRec) : Header :=
  let h := header tSchema (tx_schema_name T s) in
  let h := add_param h sId (tx_schema T (sch_id s)) in
  let h := add_param h sDev (tx_schema_dev T s) in
  suppl_param T (k_suppl k) (TagSchema, sch_id s) h.
Definition iface_header (T : Texts) (k : Kit) (i : IfaceRec) : Header :=
  let h := header tIface (tx_name T (if_name i)) in
  let h := add_param h sId (tx_iface T (if_id i)) in
  let h := add_param h sDev (tx_iface_dev T i) in
  suppl_param T (k_suppl k) (TagIface, if_id i) h.
Definition impl_header (T : Texts) (k : Kit) (i : ImplRec) : Header :=
  let h := header tImpl (tx_impl T (im_id i)) in
  let h := add_param h sInterface (tx_iface T (im_iface i)) in
  let h := add_param h sSchemaP (tx_schema T (im_schema i)) in
  let h := add_param h sDev (tx_impl_dev T i) in
  suppl_param T (k_suppl k) (TagIfaceImpl, im_id i) h.

(** kit.rs 201-264 ([armor_headers] of a kit) *)
Definition kit_headers (T : Texts) (k : Kit) : list Header :=
  [header tVersion (tx_version T)] ++ map (schema_header T k) (k_schemata k) ++
  map (iface_header T k) (k_ifaces k) ++ map (impl_header T k) (k_impls k) ++
  [header tTypes (tx_types T (k_types k))] ++
  map (fun id => header tScript (tx_lib T id)) (mkeys (k_scripts k)).

(** The crate's part: writing headers and a container as text; reading it gives the headers and
    the container, after comparing ids and checksums *)
Record Armor (A : Type) := { ar_write : list Header -> A -> str; ar_read : str -> option (list Header * A) }.
Arguments ar_write {A}. Arguments ar_read {A}.

Inductive ReadError := ReadArmor | ReadType.
(** [from_ascii_armored_str] for a consignment, which is what [FileContent::load_armored]
    (file.rs 91-96) calls *)
Definition cons_from_armored (R : Armor Consignment) (s : str) : result ReadError Consignment :=
  let! (headers, c) := ok_or ReadArmor (ar_read R s) in
  match parse_headers c headers with Ok _ => Ok c | Err _ => Err ReadArmor | Panic => Panic end.
(** file.rs 91-96 ([Contract::load_armored], [Transfer::load_armored]): the kind makes no difference *)
Definition cons_load_armored (R : Armor Consignment) (transfer : bool) (s : str) : result ReadError Consignment :=
  cons_from_armored R s.
(** consignment.rs 436-447 ([FromStr]); [transfer] is the const parameter *)
Definition cons_from_str (R : Armor Consignment) (transfer : bool) (s : str) : result ReadError Consignment :=
  let! c := cons_from_armored R s in
  if Bool.eqb (c_transfer c) transfer then Ok c else Err ReadType.
(** [to_ascii_armored_string] (file.rs 98-101, [Display]) *)
Definition cons_to_armored (R : Armor Consignment) (H : Hashes) (T : Texts) (c : Consignment) : str :=
  ar_write R (cons_headers H T c) c.

(** kit.rs 267-270 ([FromStr for Kit]) *)
Definition kit_from_str (R : Armor Kit) (s : str) : result ReadError Kit :=
  let! (_, k) := ok_or ReadArmor (ar_read R s) in Ok k.
Definition kit_to_armored (R : Armor Kit) (T : Texts) (k : Kit) : str := ar_write R (kit_headers T k) k.
