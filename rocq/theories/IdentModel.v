(** * Ids of consignments and kits, and what validation adds to the validator: model

    Models src/containers/consignment.rs 229-260, 269-270, 325-379 and
    src/containers/kit.rs 148-172, 176. *)
From Verif Require Import Base Core ContainerModel StashModel.
Local Open Scope N_scope.

(** ** Ids *)

(** What rgb-core's [disclose_hash] of an operation commits to: its id, and for each type and
    position the seal and the state which are shown.  The lists stand for maps from type and
    position. *)
Definition shown (a : Assign) : option Seal * option RState :=
  match a with
  | Confidential _ _ => (None, None)
  | ConfidentialState s _ => (Some s, None)
  | ConfidentialSeal _ st => (None, Some st)
  | Revealed s st => (Some s, Some st)
  end.
Definition Disclosure : Type := N * omap N (list (option Seal * option RState)).
Definition disclosure (H : Hashes) (o : Operation) : Disclosure :=
  (op_id H o, mmap (fun t => map shown (ta_list t)) (op_assigns o)).

(** What is fed to the commitment of a consignment and of a kit, in order; the version
    (which has one value) is left out *)
Record ConsParts := {
  cp_transfer : bool;
  cp_contract : N;
  cp_genesis : N;
  cp_impls : oset N;
  cp_bundles : oset N;
  cp_extensions : oset N;
  cp_terminals : omap N N;
  cp_attachments : oset N;
  cp_suppl : oset N;
  cp_types : N;
  cp_scripts : oset N;
  cp_signatures : omap ContentId (omap N N)
}.
Record KitParts := {
  kp_ifaces : oset N;
  kp_schemata : oset N;
  kp_impls : oset N;
  kp_suppl : oset N;
  kp_types : N;
  kp_scripts : oset N;
  kp_signatures : omap ContentId (omap N N)
}.

(** The commitments used: anchors.rs 178-179 and suppl.rs 194-195 (all of the content),
    [TypeSystem::id] of strict_types, and those of the containers *)
Record Digests := {
  d_disclose : Disclosure -> N;
  d_bundle : WitnessBundle -> N;
  d_suppl : SupplRec -> N;
  d_types : omap N N -> N;
  d_cons : ConsParts -> N;
  d_kit : KitParts -> N
}.

(** consignment.rs 232-259 ([CommitEncode for Consignment]) *)
Definition cons_parts (H : Hashes) (D : Digests) (c : Consignment) : ConsParts :=
  {| cp_transfer := c_transfer c;
     cp_contract := contract_id H (c_genesis c);
     cp_genesis := d_disclose D (disclosure H (c_genesis c));
     cp_impls := sfrom (map (fun p => im_id (snd p)) (c_ifaces c));
     cp_bundles := sfrom (map (d_bundle D) (c_bundles c));
     cp_extensions := sfrom (map (fun e => d_disclose D (disclosure H e)) (c_extensions c));
     cp_terminals := c_terminals c;
     cp_attachments := sfrom (mkeys (c_attachments c));
     cp_suppl := sfrom (map (d_suppl D) (c_supplements c));
     cp_types := d_types D (c_types c);
     cp_scripts := sfrom (mkeys (c_scripts c));
     cp_signatures := c_signatures c |}.

(** consignment.rs 269-270 ([Consignment::consignment_id]) *)
Definition consignment_id (H : Hashes) (D : Digests) (c : Consignment) : N := d_cons D (cons_parts H D c).

(** kit.rs 151-171 ([CommitEncode for Kit]) *)
Definition kit_parts (D : Digests) (k : Kit) : KitParts :=
  {| kp_ifaces := sfrom (map if_id (k_ifaces k));
     kp_schemata := sfrom (map sch_id (k_schemata k));
     kp_impls := sfrom (map im_id (k_impls k));
     kp_suppl := sfrom (map (d_suppl D) (k_suppl k));
     kp_types := d_types D (k_types k);
     kp_scripts := sfrom (mkeys (k_scripts k));
     kp_signatures := k_signatures k |}.

(** kit.rs 176 ([Kit::kit_id]) *)
Definition kit_id (D : Digests) (k : Kit) : N := d_kit D (kit_parts D k).

(** ** Validation *)

(** The status of rgb-core's validator: failures and warnings, of which the validator's own
    are opaque *)
Inductive Warning :=
| CoreWarning (w : N)
| WrongType
| WrongIface (impl target expected : N)
| AbsentTerminal (bid : N).
Record Status := { vs_failures : list N; vs_warnings : list Warning }.
Definition add_warning (s : Status) (w : Warning) : Status :=
  {| vs_failures := vs_failures s; vs_warnings := vs_warnings s ++ [w] |}.

(** consignment.rs 325-379 ([Consignment::validate]).  [core] is the status which rgb-core's
    validator gives for the indexed consignment, [valid] tells if its validity is
    [Validity::Valid]; it is asked before the warnings are added. *)
Definition validate (H : Hashes) (valid : Status -> bool) (core : Status) (want : bool) (c : Consignment)
  : result (Status * Consignment) (Status * Consignment) :=
  let validity := valid core in
  let s := if Bool.eqb (c_transfer c) want then core else add_warning core WrongType in
  let s := fold_left (fun s p =>
             if if_id (fst p) =? im_iface (snd p) then s
             else add_warning s (WrongIface (im_id (snd p)) (im_iface (snd p)) (if_id (fst p)))) (c_ifaces c) s in
  let s := fold_left (fun s bid =>
             if existsb (N.eqb bid) (index_bundle_ids H c) then s
             else add_warning s (AbsentTerminal bid)) (mkeys (c_terminals c)) s in
  if validity then Ok (s, c) else Err (s, c).
