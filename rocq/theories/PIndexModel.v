(** * The index of the stock: src/persistence/index.rs and the in-memory index of
    src/persistence/memory.rs *)
From Verif Require Import Base StM Core ContainerModel.

(** memory.rs 1197-1200 ([ContractIndex]) *)
Record ContractIndex := { ci_public : oset Opout; ci_outs : omap OutSeal (oset Opout) }.

(** memory.rs 1206-1216 ([MemIndex]); the persistence handle is left out: loading and
    storing are modelled with the stock. *)
Record MemIndex := {
  mi_op_bundle : omap N N;
  mi_bundle_contract : omap N N;
  mi_bundle_witness : omap N (oset WitnessId);
  mi_contracts : omap N ContractIndex;
  mi_terminals : omap N (oset Opout)
}.

(** memory.rs 1222-1231 ([in_memory]) *)
Definition mi_empty : MemIndex :=
  {| mi_op_bundle := []; mi_bundle_contract := []; mi_bundle_witness := [];
     mi_contracts := []; mi_terminals := [] |}.

(** index.rs 94-125 ([IndexInconsistency]) and the confinement errors reported by the
    memory provider (index.rs 62-68, 88-90) *)
Inductive IndexError :=
| ContractAbsent (cid : N)
| BundleAbsent (opid : N)
| OutpointUnknown (o : Outpoint) (cid : N)
| DistinctBundleContract (bid present expected : N)
| DistinctBundleOp (opid present expected : N)
| BundleContractUnknown (bid : N)
| BundleWitnessUnknown (bid : N)
| IndexFull.

Notation IM := (M MemIndex IndexError).

(** ** Writing *)

Definition set_op_bundle (s : MemIndex) m : MemIndex :=
  {| mi_op_bundle := m; mi_bundle_contract := mi_bundle_contract s;
     mi_bundle_witness := mi_bundle_witness s; mi_contracts := mi_contracts s;
     mi_terminals := mi_terminals s |}.
Definition set_bundle_contract (s : MemIndex) m : MemIndex :=
  {| mi_op_bundle := mi_op_bundle s; mi_bundle_contract := m;
     mi_bundle_witness := mi_bundle_witness s; mi_contracts := mi_contracts s;
     mi_terminals := mi_terminals s |}.
Definition set_bundle_witness (s : MemIndex) m : MemIndex :=
  {| mi_op_bundle := mi_op_bundle s; mi_bundle_contract := mi_bundle_contract s;
     mi_bundle_witness := m; mi_contracts := mi_contracts s;
     mi_terminals := mi_terminals s |}.
Definition set_contracts (s : MemIndex) m : MemIndex :=
  {| mi_op_bundle := mi_op_bundle s; mi_bundle_contract := mi_bundle_contract s;
     mi_bundle_witness := mi_bundle_witness s; mi_contracts := m;
     mi_terminals := mi_terminals s |}.
Definition set_terminals (s : MemIndex) m : MemIndex :=
  {| mi_op_bundle := mi_op_bundle s; mi_bundle_contract := mi_bundle_contract s;
     mi_bundle_witness := mi_bundle_witness s; mi_contracts := mi_contracts s;
     mi_terminals := m |}.

(** memory.rs 1369-1376 ([register_contract]) *)
Definition register_contract (cid : N) : IM bool := fun s =>
  if mhas cid (mi_contracts s) then (s, Ok false)
  else match cinsert U8MAX cid {| ci_public := []; ci_outs := [] |} (mi_contracts s) with
       | Some m => (set_contracts s m, Ok true)
       | None => (s, Err IndexFull)
       end.

(** memory.rs 1396-1399: [entry(..)?] refuses when the map is full; [or_default] makes an
    empty set, on which [push] cannot fail. *)
Definition push_witness (bid : N) (w : WitnessId) : IM unit := fun s =>
  if (len (mi_bundle_witness s) <? U24MAX)%N then
    match cpush U8MAX w match mget bid (mi_bundle_witness s) with Some ws => ws | None => [] end with
    | Some ws => (set_bundle_witness s (minsert bid ws (mi_bundle_witness s)), Ok tt)
    | None => (s, Err IndexFull)
    end
  else (s, Err IndexFull).

(** memory.rs 1378-1405 ([register_bundle]) *)
Definition register_bundle (bid : N) (w : WitnessId) (cid : N) : IM bool :=
  do! s <- get ;;
  match mget bid (mi_bundle_contract s) with
  | Some alt => if (alt =? cid)%N then ret tt else fail (DistinctBundleContract bid alt cid)
  | None => ret tt
  end ;;!
  push_witness bid w ;;!
  do! s <- get ;;
  match cinsert U24MAX bid cid (mi_bundle_contract s) with
  | Some m => put (set_bundle_contract s m) ;;! ret (negb (mhas bid (mi_bundle_contract s)))
  | None => fail IndexFull
  end.

(** memory.rs 1407-1426 ([register_operation]) *)
Definition register_operation (opid bid : N) : IM bool :=
  do! s <- get ;;
  match mget opid (mi_op_bundle s) with
  | Some alt => if (alt =? bid)%N then ret tt else fail (DistinctBundleOp opid alt bid)
  | None => ret tt
  end ;;!
  match cinsert U24MAX opid bid (mi_op_bundle s) with
  | Some m => put (set_op_bundle s m) ;;! ret (negb (mhas opid (mi_op_bundle s)))
  | None => fail IndexFull
  end.

(** memory.rs 1446-1453, 1484-1491: add an operation output to the entry of a seal *)
Definition put_out (cid : N) (out : OutSeal) (oo : Opout) : IM unit := fun s =>
  match mget cid (mi_contracts s) with
  | None => (s, Err (ContractAbsent cid))
  | Some ci =>
      let update outs :=
        set_contracts s (minsert cid {| ci_public := ci_public ci; ci_outs := outs |}
                           (mi_contracts s)) in
      match mget out (ci_outs ci) with
      | Some opouts =>
          match cpush U24MAX oo opouts with
          | Some opouts' => (update (minsert out opouts' (ci_outs ci)), Ok tt)
          | None => (s, Err IndexFull)
          end
      | None =>
          match cinsert U24MAX out [oo] (ci_outs ci) with
          | Some outs => (update outs, Ok tt)
          | None => (s, Err IndexFull)
          end
      end
  end.

(** memory.rs 1518-1537 ([add_terminal]): the entry is taken out of the map before the
    output is pushed, so a refused push loses the whole entry; the result of putting the
    entry back is ignored. *)
Definition add_terminal (secret : N) (oo : Opout) : IM unit := fun s =>
  let rest := mremove secret (mi_terminals s) in
  match mget secret (mi_terminals s) with
  | Some existing =>
      match cpush U8MAX oo existing with
      | None => (set_terminals s rest, Err IndexFull)
      | Some existing' =>
          match cinsert U24MAX secret existing' rest with
          | Some m => (set_terminals s m, Ok tt)
          | None => (set_terminals s rest, Ok tt)
          end
      end
  | None =>
      match cinsert U24MAX secret [oo] rest with
      | Some m => (set_terminals s m, Ok tt)
      | None => (set_terminals s rest, Err IndexFull)
      end
  end.

(** [Opout::new(opid, type_id, no as u16)]: the assignment vectors are confined to 65535
    elements, so the cast loses nothing. *)
Definition opout (opid ty : N) (no : nat) : Opout :=
  {| oo_op := opid; oo_ty := ty; oo_no := N.of_nat no |}.

(** memory.rs 1501-1516 ([extend_terminals]) *)
Definition extend_terminals (l : list Assign) (opid ty : N) : IM unit :=
  mfor (fun p : nat * Assign =>
          match snd p with
          | Confidential seal _ | ConfidentialSeal seal _ =>
              add_terminal seal (opout opid ty (fst p))
          | _ => ret tt
          end) (enumerate l).

(** memory.rs 1428-1459 ([index_genesis_assignments], [w = None]) and 1461-1497
    ([index_transition_assignments], [w = Some witness]): the output of a revealed seal, a
    panic where it has none *)
Definition assign_output (w : option WitnessId) (seal : Seal) : option OutSeal :=
  match w with
  | None => to_output_seal seal
  | Some w => try_to_output_seal seal w
  end.
Definition index_assignments (cid : N) (l : list Assign) (opid ty : N) (w : option WitnessId)
  : IM unit :=
  do! s <- get ;;
  (if mhas cid (mi_contracts s) then ret tt else fail (ContractAbsent cid)) ;;!
  mfor (fun p : nat * Assign =>
          match snd p with
          | ConfidentialState seal _ | Revealed seal _ =>
              match assign_output w seal with
              | Some out => put_out cid out (opout opid ty (fst p))
              | None => panic
              end
          | _ => ret tt
          end) (enumerate l) ;;!
  extend_terminals l opid ty.

(** index.rs 188-208, 217-237, 253-293: the loops over the assignments of an operation; the
    four kinds of state are treated alike *)
Definition index_op_assigns (cid opid : N) (w : option WitnessId) (o : Operation) : IM unit :=
  mfor (fun p : N * TypedAssigns => index_assignments cid (ta_list (snd p)) opid (fst p) w)
       (op_assigns o).

(** index.rs 186-209 ([index_genesis]), 211-238 ([index_extension]) *)
Definition pindex_genesis (H : Hashes) (cid : N) (g : Operation) : IM unit :=
  index_op_assigns cid (op_id H g) None g.
Definition pindex_extension (H : Hashes) (cid : N) (e : Operation) : IM unit :=
  index_op_assigns cid (op_id H e) None e.

(** index.rs 240-296 ([index_bundle]) *)
Definition pindex_bundle (H : Hashes) (cid : N) (b : Bundle) (w : WitnessId) : IM unit :=
  do! _ <- register_bundle (bundle_id H b) w cid ;;
  mfor (fun p : N * Operation =>
          do! _ <- register_operation (fst p) (bundle_id H b) ;;
          index_op_assigns cid (fst p) (Some w) (snd p))
       (b_known b).

(** index.rs 159-184 ([index_consignment]) *)
Definition pindex_consignment (H : Hashes) (c : Consignment) : IM unit :=
  let cid := contract_id H (c_genesis c) in
  do! _ <- register_contract cid ;;
  pindex_genesis H cid (c_genesis c) ;;!
  mfor (pindex_extension H cid) (c_extensions c) ;;!
  mfor (fun wb => mfor (fun b => pindex_bundle H cid b (wb_id wb))
                       (anchored_bundles (wb_bundles wb)))
       (c_bundles c).

(** ** Reading *)

(** memory.rs 1274-1294 ([contracts_assigning]) *)
Definition contracts_assigning (s : MemIndex) (outpoints : oset Outpoint) : list N :=
  flat_map (fun p : N * ContractIndex =>
              filter_map (fun o => if existsb (fun seal => keqb (os_outpoint seal) o)
                                              (mkeys (ci_outs (snd p)))
                                   then Some (fst p) else None) outpoints)
           (mi_contracts s).

(** memory.rs 1296-1305 ([public_opouts]) *)
Definition public_opouts (s : MemIndex) (cid : N) : result IndexError (oset Opout) :=
  let! ci := ok_or (ContractAbsent cid) (mget cid (mi_contracts s)) in Ok (ci_public ci).

(** memory.rs 1307-1327 ([opouts_by_outputs]) *)
Definition opouts_by_outputs (s : MemIndex) (cid : N) (outpoints : list Outpoint)
  : result IndexError (oset Opout) :=
  let! ci := ok_or (ContractAbsent cid) (mget cid (mi_contracts s)) in
  rfold (fun opouts o =>
           let! p := ok_or (OutpointUnknown o cid)
                       (find (fun p => keqb (os_outpoint (fst p)) o) (ci_outs ci)) in
           Ok (fold_left (fun acc x => sinsert x acc) (snd p) opouts)) [] outpoints.

(** memory.rs 1329-1341 ([opouts_by_terminals]) *)
Definition opouts_by_terminals (s : MemIndex) (terminals : list N) : oset Opout :=
  sfrom (flat_map snd (filter (fun p => existsb (N.eqb (fst p)) terminals) (mi_terminals s))).

(** memory.rs 1343-1348 ([bundle_id_for_op]) *)
Definition bundle_id_for_op (s : MemIndex) (opid : N) : result IndexError N :=
  ok_or (BundleAbsent opid) (mget opid (mi_op_bundle s)).

(** memory.rs 1350-1363 ([bundle_info]) *)
Definition bundle_info (s : MemIndex) (bid : N) : result IndexError (list WitnessId * N) :=
  let! ws := ok_or (BundleWitnessUnknown bid) (mget bid (mi_bundle_witness s)) in
  let! cid := ok_or (BundleContractUnknown bid) (mget bid (mi_bundle_contract s)) in
  Ok (ws, cid).

(** ** Histories *)

(** The calls by which the stock writes its index: stock.rs 1302-1318
    ([consume_consignment]) and, per bundle of a fascia, stock.rs 1328-1355
    ([consume_fascia]) *)
Inductive IndexCall :=
| IxConsignment (c : Consignment)
| IxBundle (cid : N) (b : Bundle) (w : WitnessId).

Definition index_call (H : Hashes) (c : IndexCall) : IM unit :=
  match c with
  | IxConsignment c => pindex_consignment H c
  | IxBundle cid b w => pindex_bundle H cid b w
  end.

(** Calls one after another, each leaving what it wrote whether or not it succeeded *)
Definition index_calls (H : Hashes) (l : list IndexCall) (s : MemIndex) : MemIndex :=
  fold_left (fun s c => fst (index_call H c s)) l s.
