(** * What ids of containers stand for, and what validation has seen: specification for C64, C65 *)
From Coq Require Import Sorting.Sorted.
From Verif Require Import Base Core ContainerModel ContainerSpec StashModel ConsignModel IdentModel.
Local Open Scope N_scope.

(** The commitments of containers bind. *)
Definition digests_bind (D : Digests) : Prop :=
  (forall a b, binds (d_disclose D) a b) /\ (forall a b, binds (d_bundle D) a b) /\ (forall a b, binds (d_suppl D) a b) /\
  (forall a b, binds (d_types D) a b) /\ (forall a b, binds (d_cons D) a b) /\ (forall a b, binds (d_kit D) a b).

Definition same_elements {A} (l l' : list A) : Prop := forall x, In x l <-> In x l'.

(** Two consignments agree in all their id commits to. *)
Record cons_alike (c c' : Consignment) : Prop := {
  ca_transfer : c_transfer c = c_transfer c';
  ca_genesis : c_genesis c = c_genesis c';
  ca_extensions : same_elements (c_extensions c) (c_extensions c');
  ca_bundles : same_elements (c_bundles c) (c_bundles c');
  ca_terminals : c_terminals c = c_terminals c';
  ca_impls : same_elements (map (fun p => im_id (snd p)) (c_ifaces c)) (map (fun p => im_id (snd p)) (c_ifaces c'));
  ca_supplements : same_elements (c_supplements c) (c_supplements c');
  ca_types : c_types c = c_types c';
  ca_scripts : same_elements (mkeys (c_scripts c)) (mkeys (c_scripts c'));
  ca_attachments : same_elements (mkeys (c_attachments c)) (mkeys (c_attachments c'));
  ca_signatures : c_signatures c = c_signatures c'
}.

(** Two kits agree in all their id commits to. *)
Record kit_alike (k k' : Kit) : Prop := {
  ka_ifaces : same_elements (map if_id (k_ifaces k)) (map if_id (k_ifaces k'));
  ka_schemata : same_elements (map sch_id (k_schemata k)) (map sch_id (k_schemata k'));
  ka_impls : same_elements (map im_id (k_impls k)) (map im_id (k_impls k'));
  ka_suppl : same_elements (k_suppl k) (k_suppl k');
  ka_types : k_types k = k_types k';
  ka_scripts : same_elements (mkeys (k_scripts k)) (mkeys (k_scripts k'));
  ka_signatures : k_signatures k = k_signatures k'
}.

(** Ordered sets and maps are listed in order. *)
Definition ordered_by {A B} {OB : OrdKey B} (f : A -> B) (l : list A) : Prop :=
  StronglySorted (fun x y => cmp (f x) (f y) = Lt) l.
Record cons_ordered (H : Hashes) (c : Consignment) : Prop := {
  co_extensions : ordered_by (op_id H) (c_extensions c);
  co_bundles' : ordered_by wb_id (c_bundles c);
  co_ifaces : ordered_by (fun p => if_id (fst p)) (c_ifaces c);
  co_supplements : ordered_by (fun s => s) (c_supplements c);
  co_scripts : msorted (c_scripts c);
  co_attachments : msorted (c_attachments c)
}.
Record kit_ordered (k : Kit) : Prop := {
  ko_ifaces : ordered_by if_id (k_ifaces k);
  ko_schemata : ordered_by sch_id (k_schemata k);
  ko_impls : ordered_by im_id (k_impls k);
  ko_suppl : ordered_by (fun s => s) (k_suppl k);
  ko_scripts : msorted (k_scripts k)
}.

(** The id of a definition, library or attachment is that of one content. *)
Definition ids_bind {A} (id : A -> N) (l l' : list A) : Prop :=
  forall x y, In x l -> In y l' -> id x = id y -> x = y.

(** The schema is the one of the genesis, and implementations are of the interfaces they are
    listed for. *)
Definition schema_fits (c : Consignment) : Prop := sch_id (c_schema c) = g_schema (c_genesis c).
Definition ifaces_fit (c : Consignment) : Prop := forall i im, In (i, im) (c_ifaces c) -> im_iface im = if_id i.

(** What the validator can look up in two consignments is the same. *)
Definition look_alike (H : Hashes) (c c' : Consignment) : Prop :=
  c_schema c = c_schema c' /\ c_types c = c_types c' /\ c_scripts c = c_scripts c' /\ c_genesis c = c_genesis c' /\
  (forall id, index_operation H c id = index_operation H c' id) /\
  index_bundle_ids H c = index_bundle_ids H c' /\
  (forall bid, index_bundle H c bid = index_bundle H c' bid) /\
  (forall bid, index_anchor H c bid = index_anchor H c' bid) /\
  (forall id, index_op_witness_id H c id = index_op_witness_id H c' id).

(** Each bundle is in the consignment once. *)
Definition one_copy (H : Hashes) (c : Consignment) : Prop :=
  forall w a b w' a' b', holds c w a b -> holds c w' a' b' -> bundle_id H b = bundle_id H b' -> w = w' /\ a = a' /\ b = b'.
