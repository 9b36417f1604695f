(** * Passing on what was received: specification for C67 *)
From Verif Require Import Base StM Core ContainerModel ContainerSpec PIndexModel PIndexSpec StateModel StateSpec StashModel StashSpec StockModel StockAgain ConsignModel ConsignSpec ExportSpec.
Local Open Scope N_scope.

(** A receiver starting with nothing, who generated blinded seals and saved the stock *)
Definition only_seals (l : list StockCall) : Prop := forall c, In c l -> c = SkStore \/ exists x, c = SkSeal x.

(** The resolver says of no witness of the consignment that it is archived. *)
Definition not_archived (c : Consignment) (r : Resolver) : Prop :=
  forall wb, In wb (c_bundles c) -> r (wb_id wb) <> Some Archived.

(** What the receiver knew of the bundles of the consignment before agrees with it. *)
Definition agrees (H : Hashes) (s : Stock) (c : Consignment) : Prop :=
  forall w a b id, holds c w a b -> mget id (b_known b) <> None -> agreeable H s c (bundle_id H b) id.

(** The kit comes with the types and libraries which its schemata and interfaces mention, and
    not too many of the latter. *)
Record complete_kit (k : Kit) : Prop := {
  ck_types : forall sc id, In sc (k_schemata k) -> In id (sch_types sc) -> mget id (k_types k) <> None;
  ck_iface_types : forall i id, In i (k_ifaces k) -> In id (if_types i) -> mget id (k_types k) <> None;
  ck_libs : forall sc id, In sc (k_schemata k) -> In id (sch_libs sc) -> mget id (k_scripts k) <> None;
  ck_fit : forall sc, In sc (k_schemata k) -> at_most U8MAX (fun id => In id (sch_libs sc))
}.

(** How a user comes to a stock: starting with nothing, importing complete kits and accepting
    complete consignments, and in between creating seals, sending (with fascias), updating
    witnesses and saving, in any order. *)
Inductive collected {OG : OrdKey GlobalOut} (H : Hashes) (K : Merkle) : Stock -> Prop :=
| col_nothing : collected H K sk_empty
| col_accept s c r s1 : collected H K s -> stock_call_ok H (SkAccept c r) -> complete_kit (kit_of c) ->
    accept_body H K c r s = (s1, Ok tt) -> collected H K s1
| col_kit s k s1 : collected H K s -> complete_kit k -> on_stash (consume_kit k) s = (s1, Ok tt) -> collected H K s1
| col_other s d : collected H K s -> stock_call_ok H d ->
    match d with SkAccept _ _ | SkKit _ => False | _ => True end -> collected H K (fst (stock_body H K d s)).

(** There are not too many signatures and annotations for one consignment. *)
Definition few_notes (s : MemStash) : Prop :=
  at_most U8MAX (fun ct => mget ct (st_sigs s) <> None) /\ at_most U8MAX (fun x => exists ct, first_note s ct x).

(** What can be asked of a stock: the contract has state at every output asked for; of
    what is found at them one bundle has at most one assigned to the
    secret seal, and there are not too many such bundles. *)
Record askable (H : Hashes) (s : Stock) (cid : N) (outputs : list OutSeal) (secret : option N) : Prop := {
  ak_outputs : forall o, In o outputs -> exists out oo, os_outpoint out = os_outpoint o /\ states (sk_index s) (FOut cid out oo);
  ak_terminal : forall x, secret = Some x -> one_terminal H s cid outputs x;
  ak_fit : at_most U16MAX (fun bid => exists x oo t ty no, secret = Some x /\ found s cid outputs secret oo /\ oo_op oo <> cid /\
    known_in s (oo_op oo) bid t /\ assigned_to H t ty no x)
}.

(** [c'] tells no more than [c]: it is of the same contract, and each of its bundles is one of
    [c], under the same witness and with the same commitment. *)
Record retold (H : Hashes) (c c' : Consignment) : Prop := {
  rt_genesis : c_genesis c' = c_genesis c;
  rt_schema : c_schema c' = c_schema c;
  rt_bundle : forall w a' b', holds c' w a' b' -> exists a b, holds c w a b /\ bundle_id H b = bundle_id H b' /\ ea_dbc a' = ea_dbc a;
  rt_witness : forall wb, In wb (c_bundles c') -> exists wb0, In wb0 (c_bundles c) /\ wb_id wb0 = wb_id wb
}.

(** [c'] is of the same contract, and tells no more of its history than [c]. *)
Record retold_history (H : Hashes) (c c' : Consignment) : Prop := {
  rh_contract : contract_id H (c_genesis c') = contract_id H (c_genesis c);
  rh_bundle : forall w a' b', holds c' w a' b' -> exists a b, holds c w a b /\ bundle_id H b = bundle_id H b' /\ ea_dbc a' = ea_dbc a;
  rh_witness : forall wb, In wb (c_bundles c') -> exists wb0, In wb0 (c_bundles c) /\ wb_id wb0 = wb_id wb
}.

(** What is asked of the receiver's stock [r] comes from the history which stock [s] exported. *)
Definition within (s r : Stock) (cid : N) (outputs : list OutSeal) (secret : option N) (outputs' : list OutSeal) (secret' : option N) : Prop :=
  forall oo, found r cid outputs' secret' oo -> oo_op oo = cid \/ found_history s cid outputs secret (oo_op oo).

(** The consignment [c0] was exported from some stock and went through any number of hands: each
    accepted the one handed to them, with nothing but blinded seals before, and exported some of the
    history they received. [c] is the last export, of what [outputs] and [secret] ask of stock [s]. *)
Inductive handed {OG : OrdKey GlobalOut} (H : Hashes) (K : Merkle) (cid : N) (c0 : Consignment) :
    Stock -> list OutSeal -> option N -> Consignment -> Prop :=
| handed_first s fuel transfer outputs secret : reachable H K s ->
    consign H K fuel s transfer cid outputs secret = Some (Ok c0) -> handed H K cid c0 s outputs secret c0
| handed_on s outputs secret c l r r1 fuel transfer outputs' secret' c' : handed H K cid c0 s outputs secret c ->
    only_seals l -> accept_body H K c r (stock_after H K sk_empty l) = (r1, Ok tt) -> not_archived c r ->
    askable H r1 cid outputs' secret' -> within s r1 cid outputs secret outputs' secret' ->
    consign H K fuel r1 transfer cid outputs' secret' = Some (Ok c') -> handed H K cid c0 r1 outputs' secret' c'.

(** The same with hands which may hold other things already *)
Inductive handed_among {OG : OrdKey GlobalOut} (H : Hashes) (K : Merkle) (cid : N) (c0 : Consignment) :
    Stock -> list OutSeal -> option N -> Consignment -> Prop :=
| among_first s fuel transfer outputs secret : reachable H K s ->
    consign H K fuel s transfer cid outputs secret = Some (Ok c0) -> handed_among H K cid c0 s outputs secret c0
| among_on s outputs secret c s0 r r1 fuel transfer outputs' secret' c' : handed_among H K cid c0 s outputs secret c ->
    collected H K s0 -> agrees H s0 c -> accept_body H K c r s0 = (r1, Ok tt) -> not_archived c r -> few_notes (sk_stash r1) ->
    askable H r1 cid outputs' secret' -> within s r1 cid outputs secret outputs' secret' ->
    consign H K fuel r1 transfer cid outputs' secret' = Some (Ok c') -> handed_among H K cid c0 r1 outputs' secret' c'.
