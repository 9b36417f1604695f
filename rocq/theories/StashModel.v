(** * The stash: src/persistence/stash.rs and the in-memory stash of
    src/persistence/memory.rs 84-486 *)
From Verif Require Import Base StM Core ContainerModel.
From Verif Require Export SupplModel.
Local Open Scope N_scope.

(** ** Data *)

(** stash.rs 173-193 ([SchemaIfaces]): implementations keyed by interface name *)
Record SchemaIfaces := { si_schema : SchemaRec; si_impls : omap N ImplRec }.

(** anchors.rs 62-65 ([SealWitness]) *)
Record SealWitness := { sw_public : XPubWitness; sw_anchors : AnchorSet }.
Definition sw_id (w : SealWitness) : WitnessId := witness_id (sw_public w).

(** memory.rs 87-105 ([MemStash]) without the persistence handle.  Types, libraries and
    attachments are ids with opaque content; identities and signatures are numbers. *)
Record MemStash := {
  st_schemata : omap N SchemaIfaces;
  st_ifaces : omap N IfaceRec;
  st_geneses : omap N Operation;
  st_suppl : omap ContentId (oset SupplRec);
  st_bundles : omap N Bundle;
  st_extensions : omap N Operation;
  st_witnesses : omap WitnessId SealWitness;
  st_attachments : omap N N;
  st_seals : oset Seal;
  st_types : omap N N;
  st_identities : omap N TrustLevel;
  st_libs : omap N N;
  st_sigs : omap ContentId (omap N N)
}.

(** memory.rs 110-129 ([MemStash::in_memory]) *)
Definition st_empty : MemStash :=
  {| st_schemata := []; st_ifaces := []; st_geneses := []; st_suppl := []; st_bundles := []; 
st_extensions := []; st_witnesses := []; st_attachments := []; st_seals := []; st_types := []; 
st_identities := []; st_libs := []; st_sigs := [] |}.

(** Assignments to single fields *)
Definition with_schemata (x : omap N SchemaIfaces) (s : MemStash) : MemStash :=
  {| st_schemata := x; st_ifaces := st_ifaces s; st_geneses := st_geneses s; st_suppl := st_suppl 
s; st_bundles := st_bundles s; st_extensions := st_extensions s; st_witnesses := st_witnesses s; 
st_attachments := st_attachments s; st_seals := st_seals s; st_types := st_types s; st_identities 
:= st_identities s; st_libs := st_libs s; st_sigs := st_sigs s |}.
Definition with_ifaces (x : omap N IfaceRec) (s : MemStash) : MemStash :=
  {| st_schemata := st_schemata s; st_ifaces := x; st_geneses := st_geneses s; st_suppl := st_suppl 
s; st_bundles := st_bundles s; st_extensions := st_extensions s; st_witnesses := st_witnesses s; 
st_attachments := st_attachments s; st_seals := st_seals s; st_types := st_types s; st_identities 
:= st_identities s; st_libs := st_libs s; st_sigs := st_sigs s |}.
Definition with_geneses (x : omap N Operation) (s : MemStash) : MemStash :=
  {| st_schemata := st_schemata s; st_ifaces := st_ifaces s; st_geneses := x; st_suppl := st_suppl 
s; st_bundles := st_bundles s; st_extensions := st_extensions s; st_witnesses := st_witnesses s; 
st_attachments := st_attachments s; st_seals := st_seals s; st_types := st_types s; st_identities 
:= st_identities s; st_libs := st_libs s; st_sigs := st_sigs s |}.
Definition with_suppl (x : omap ContentId (oset SupplRec)) (s : MemStash) : MemStash :=
  {| st_schemata := st_schemata s; st_ifaces := st_ifaces s; st_geneses := st_geneses s; st_suppl 
:= x; st_bundles := st_bundles s; st_extensions := st_extensions s; st_witnesses := st_witnesses s; 
st_attachments := st_attachments s; st_seals := st_seals s; st_types := st_types s; st_identities 
:= st_identities s; st_libs := st_libs s; st_sigs := st_sigs s |}.
Definition with_bundles (x : omap N Bundle) (s : MemStash) : MemStash :=
  {| st_schemata := st_schemata s; st_ifaces := st_ifaces s; st_geneses := st_geneses s; st_suppl 
:= st_suppl s; st_bundles := x; st_extensions := st_extensions s; st_witnesses := st_witnesses s; 
st_attachments := st_attachments s; st_seals := st_seals s; st_types := st_types s; st_identities 
:= st_identities s; st_libs := st_libs s; st_sigs := st_sigs s |}.
Definition with_extensions (x : omap N Operation) (s : MemStash) : MemStash :=
  {| st_schemata := st_schemata s; st_ifaces := st_ifaces s; st_geneses := st_geneses s; st_suppl 
:= st_suppl s; st_bundles := st_bundles s; st_extensions := x; st_witnesses := st_witnesses s; 
st_attachments := st_attachments s; st_seals := st_seals s; st_types := st_types s; st_identities 
:= st_identities s; st_libs := st_libs s; st_sigs := st_sigs s |}.
Definition with_witnesses (x : omap WitnessId SealWitness) (s : MemStash) : MemStash :=
  {| st_schemata := st_schemata s; st_ifaces := st_ifaces s; st_geneses := st_geneses s; st_suppl 
:= st_suppl s; st_bundles := st_bundles s; st_extensions := st_extensions s; st_witnesses := x; 
st_attachments := st_attachments s; st_seals := st_seals s; st_types := st_types s; st_identities 
:= st_identities s; st_libs := st_libs s; st_sigs := st_sigs s |}.
Definition with_attachments (x : omap N N) (s : MemStash) : MemStash :=
  {| st_schemata := st_schemata s; st_ifaces := st_ifaces s; st_geneses := st_geneses s; st_suppl 
:= st_suppl s; st_bundles := st_bundles s; st_extensions := st_extensions s; st_witnesses := 
st_witnesses s; st_attachments := x; st_seals := st_seals s; st_types := st_types s; st_identities 
:= st_identities s; st_libs := st_libs s; st_sigs := st_sigs s |}.
Definition with_seals (x : oset Seal) (s : MemStash) : MemStash :=
  {| st_schemata := st_schemata s; st_ifaces := st_ifaces s; st_geneses := st_geneses s; st_suppl 
:= st_suppl s; st_bundles := st_bundles s; st_extensions := st_extensions s; st_witnesses := 
st_witnesses s; st_attachments := st_attachments s; st_seals := x; st_types := st_types s; 
st_identities := st_identities s; st_libs := st_libs s; st_sigs := st_sigs s |}.
Definition with_types (x : omap N N) (s : MemStash) : MemStash :=
  {| st_schemata := st_schemata s; st_ifaces := st_ifaces s; st_geneses := st_geneses s; st_suppl 
:= st_suppl s; st_bundles := st_bundles s; st_extensions := st_extensions s; st_witnesses := 
st_witnesses s; st_attachments := st_attachments s; st_seals := st_seals s; st_types := x; 
st_identities := st_identities s; st_libs := st_libs s; st_sigs := st_sigs s |}.
Definition with_identities (x : omap N TrustLevel) (s : MemStash) : MemStash :=
  {| st_schemata := st_schemata s; st_ifaces := st_ifaces s; st_geneses := st_geneses s; st_suppl 
:= st_suppl s; st_bundles := st_bundles s; st_extensions := st_extensions s; st_witnesses := 
st_witnesses s; st_attachments := st_attachments s; st_seals := st_seals s; st_types := st_types s; 
st_identities := x; st_libs := st_libs s; st_sigs := st_sigs s |}.
Definition with_libs (x : omap N N) (s : MemStash) : MemStash :=
  {| st_schemata := st_schemata s; st_ifaces := st_ifaces s; st_geneses := st_geneses s; st_suppl 
:= st_suppl s; st_bundles := st_bundles s; st_extensions := st_extensions s; st_witnesses := 
st_witnesses s; st_attachments := st_attachments s; st_seals := st_seals s; st_types := st_types s; 
st_identities := st_identities s; st_libs := x; st_sigs := st_sigs s |}.
Definition with_sigs (x : omap ContentId (omap N N)) (s : MemStash) : MemStash :=
  {| st_schemata := st_schemata s; st_ifaces := st_ifaces s; st_geneses := st_geneses s; st_suppl 
:= st_suppl s; st_bundles := st_bundles s; st_extensions := st_extensions s; st_witnesses := 
st_witnesses s; st_attachments := st_attachments s; st_seals := st_seals s; st_types := st_types s; 
st_identities := st_identities s; st_libs := st_libs s; st_sigs := x |}.

(** kit.rs 113-134 ([Kit]); sets are given by their elements in order *)
Record Kit := {
  k_ifaces : list IfaceRec;
  k_schemata : list SchemaRec;
  k_impls : list ImplRec;
  k_suppl : list SupplRec;
  k_types : omap N N;
  k_scripts : omap N N;
  k_signatures : omap ContentId (omap N N)
}.

(** stash.rs 55-160 ([StashError], [StashProviderError], [StashInconsistency]) and the
    confinement error of the in-memory provider *)
Inductive StashError :=
| StashFull
| StashMerge (e : MergeError)
| StashWitnessMerge (e : WitnessMergeError)
| StashAnchor (e : AnchorError)
| StashMerkle
| SchemaAbsent (id : N)
| IfaceAbsent (ref : N)
| LibAbsent (id : N)
| ContractAbsent (id : N)
| BundleAbsent (id : N)
| OperationAbsent (id : N)
| WitnessAbsent (w : WitnessId).

Definition STM := M MemStash StashError.

(** A bounded collection grew, or the call fails *)
Definition grown {A} (o : option A) : STM A := lift (ok_or StashFull o).

(** The Merkle proofs of rgb's multi-protocol commitments (crate commit_verify).
    [mk_with proof proto msg] is the root of [MerkleBlock::with], if the proof admits
    the pair; [mk_proof root known proto] is [MerkleBlock::to_merkle_proof]. *)
Record Merkle := {
  mk_with : N -> N -> N -> option N;
  mk_proof : N -> omap N N -> N -> option N
}.

(** ** Reading, memory.rs 176-357 *)

(** 182-186 *)
Definition stash_lib (s : MemStash) (id : N) : result StashError N :=
  ok_or (LibAbsent id) (mget id (st_libs s)).

(** 188-190 *)
Definition stash_ifaces (s : MemStash) : list IfaceRec := mvals (st_ifaces s).

(** 192-199, by id *)
Definition iface_by_id (s : MemStash) (id : N) : result StashError IfaceRec :=
  ok_or (IfaceAbsent id) (mget id (st_ifaces s)).

(** 192-199, by name: the first one in the order of ids *)
Definition iface_by_name (s : MemStash) (name : N) : result StashError IfaceRec :=
  ok_or (IfaceAbsent name) (find (fun i => if_name i =? name) (stash_ifaces s)).

(** 201-203 *)
Definition stash_schemata (s : MemStash) : list SchemaIfaces := mvals (st_schemata s).

(** 236-243 *)
Definition stash_schema (s : MemStash) (id : N) : result StashError SchemaIfaces :=
  ok_or (SchemaAbsent id) (mget id (st_schemata s)).

(** stash.rs 186-192 ([SchemaIfaces::get], [contains]): by the id of the interface *)
Definition impl_get (si : SchemaIfaces) (iface : N) : option ImplRec :=
  find (fun i => im_iface i =? iface) (mvals (si_impls si)).

(** 245-247 *)
Definition get_trust (s : MemStash) (id : N) : TrustLevel :=
  match mget id (st_identities s) with Some l => l | None => trust_default end.

(** 253-263, and 249-251: the first one *)
Definition stash_supplements (s : MemStash) (c : ContentId) : list SupplRec :=
  match mget c (st_suppl s) with Some l => l | None => [] end.
Definition stash_supplement (s : MemStash) (c : ContentId) : option SupplRec :=
  match mget c (st_suppl s) with Some (a :: _) => Some a | _ => None end.

(** 265-267 *)
Definition sigs_for (s : MemStash) (c : ContentId) : option (omap N N) := mget c (st_sigs s).

(** 269-271, 281-288 *)
Definition stash_geneses (s : MemStash) : list Operation := mvals (st_geneses s).
Definition stash_genesis (s : MemStash) (id : N) : result StashError Operation :=
  ok_or (ContractAbsent id) (mget id (st_geneses s)).

(** 290-324 *)
Definition stash_witness_ids (s : MemStash) : list WitnessId := mkeys (st_witnesses s).
Definition stash_bundle_ids (s : MemStash) : list N := mkeys (st_bundles s).
Definition stash_bundle (s : MemStash) (id : N) : result StashError Bundle :=
  ok_or (BundleAbsent id) (mget id (st_bundles s)).
Definition stash_extension_ids (s : MemStash) : list N := mkeys (st_extensions s).
Definition stash_extension (s : MemStash) (id : N) : result StashError Operation :=
  ok_or (OperationAbsent id) (mget id (st_extensions s)).
Definition stash_witness (s : MemStash) (w : WitnessId) : result StashError SealWitness :=
  ok_or (WitnessAbsent w) (mget w (st_witnesses s)).

(** 326-341: the root stands for the commitment id, the proof for its nonce *)
Definition stash_taprets (s : MemStash) : list (WitnessId * (N * N)) :=
  filter_map (fun p => match sw_anchors (snd p) with
                       | ASTapret a | ASDouble a _ => Some (fst p, (an_root a, an_dbc a))
                       | ASOpret _ => None
                       end) (st_witnesses s).

(** 343-352: the first seal with this hash *)
Definition seal_secret (H : Hashes) (s : MemStash) (secret : N) : option Seal :=
  find (fun x => h_seal H x =? secret) (st_seals s).

(** ** Writing, memory.rs 359-481 *)

(** 362-369: nothing happens if it is known *)
Definition replace_schema (sc : SchemaRec) : STM bool :=
  do! s <- get ;;
  if mhas (sch_id sc) (st_schemata s) then ret false
  else do! m <- grown (cinsert U8MAX (sch_id sc) {| si_schema := sc; si_impls := [] |} (st_schemata s)) ;;
       put (with_schemata m s) ;;! ret true.

(** 371-378 *)
Definition replace_iface (i : IfaceRec) : STM bool :=
  do! s <- get ;;
  if mhas (if_id i) (st_ifaces s) then ret false
  else do! m <- grown (cinsert U8MAX (if_id i) i (st_ifaces s)) ;;
       put (with_ifaces m s) ;;! ret true.

(** 380-390: two panics; an implementation filed under the same interface name is
    replaced *)
Definition replace_iimpl (im : ImplRec) : STM bool :=
  do! s <- get ;;
  match mget (im_schema im) (st_schemata s) with
  | None => panic
  | Some si =>
      match mget (im_iface im) (st_ifaces s) with
      | None => panic
      | Some i =>
          do! m <- grown (cinsert U8MAX (if_name i) im (si_impls si)) ;;
          put (with_schemata (minsert (im_schema im) {| si_schema := si_schema si; si_impls := m |}
                                     (st_schemata s)) s) ;;!
          ret (negb (mhas (if_name i) (si_impls si)))
      end
  end.

(** 392-399 *)
Definition set_trust (id : N) (l : TrustLevel) : STM unit :=
  do! s <- get ;;
  do! m <- grown (cinsert U16MAX id l (st_identities s)) ;;
  put (with_identities m s).

(** 401-409 *)
Definition add_supplement (x : SupplRec) : STM unit :=
  do! s <- get ;;
  match mget (su_content x) (st_suppl s) with
  | None => do! m <- grown (cinsert U8MAX (su_content x) [x] (st_suppl s)) ;; put (with_suppl m s)
  | Some l => do! l' <- grown (cpush U8MAX x l) ;;
              put (with_suppl (minsert (su_content x) l' (st_suppl s)) s)
  end.

(** 411-442: what is stored under the id is replaced *)
Definition replace_genesis (H : Hashes) (g : Operation) : STM bool :=
  do! s <- get ;;
  do! m <- grown (cinsert U8MAX (contract_id H g) g (st_geneses s)) ;;
  put (with_geneses m s) ;;! ret (negb (mhas (contract_id H g) (st_geneses s))).
Definition replace_extension (H : Hashes) (e : Operation) : STM bool :=
  do! s <- get ;;
  do! m <- grown (cinsert U32MAX (op_id H e) e (st_extensions s)) ;;
  put (with_extensions m s) ;;! ret (negb (mhas (op_id H e) (st_extensions s))).
Definition replace_bundle (H : Hashes) (b : Bundle) : STM bool :=
  do! s <- get ;;
  do! m <- grown (cinsert U32MAX (bundle_id H b) b (st_bundles s)) ;;
  put (with_bundles m s) ;;! ret (negb (mhas (bundle_id H b) (st_bundles s))).
Definition replace_witness (w : SealWitness) : STM bool :=
  do! s <- get ;;
  do! m <- grown (cinsert U32MAX (sw_id w) w (st_witnesses s)) ;;
  put (with_witnesses m s) ;;! ret (negb (mhas (sw_id w) (st_witnesses s))).
Definition replace_attachment (id data : N) : STM bool :=
  do! s <- get ;;
  do! m <- grown (cinsert U16MAX id data (st_attachments s)) ;;
  put (with_attachments m s) ;;! ret (negb (mhas id (st_attachments s))).

(** 444-446: the types are added one by one ([TypeSystem::extend] of strict_types) *)
Definition consume_types (types : omap N N) : STM unit :=
  mfor (fun p => do! s <- get ;;
                 do! m <- grown (cinsert U24MAX (fst p) (snd p) (st_types s)) ;;
                 put (with_types m s)) types.

(** 448-451 *)
Definition replace_lib (lib : N * N) : STM bool :=
  do! s <- get ;;
  do! m <- grown (cinsert U16MAX (fst lib) (snd lib) (st_libs s)) ;;
  put (with_libs m s) ;;! ret (negb (mhas (fst lib) (st_libs s))).

(** 455-466: the filter of [import_sigs], for one signature.  An identity seen for the
    first time is recorded with the default level, if there is room. *)
Definition judge (ids : omap N TrustLevel) (id : N) : omap N TrustLevel * bool :=
  match mget id ids with
  | Some l => (ids, should_accept l)
  | None => (match cinsert U16MAX id trust_default ids with Some ids' => ids' | None => ids end,
             should_accept trust_default)
  end.

(** 453-474: accepted signatures are added to [acc] one by one, until it holds ten
    (util.rs 108-112, [ContentSigs]) *)
Definition SIGSMAX : N := 10.
Fixpoint add_sigs (ids : omap N TrustLevel) (acc : omap N N) (sigs : list (N * N))
  : omap N TrustLevel * omap N N * bool :=
  match sigs with
  | [] => (ids, acc, true)
  | (id, blob) :: rest =>
      let (ids', ok) := judge ids id in
      if ok then
        match cinsert SIGSMAX id blob acc with
        | Some acc' => add_sigs ids' acc' rest
        | None => (ids', acc, false)
        end
      else add_sigs ids' acc rest
  end.

(** 453-474: known content gets the signatures added to those it has, and keeps what was
    added before a failure; new content gets an entry if there is a signature left and
    room for the entry *)
Definition import_sigs (c : ContentId) (sigs : omap N N) : STM unit :=
  do! s <- get ;;
  match mget c (st_sigs s) with
  | Some prev =>
      match add_sigs (st_identities s) prev sigs with
      | (ids, acc, ok) =>
          put (with_sigs (minsert c acc (st_sigs s)) (with_identities ids s)) ;;!
          if ok then ret tt else fail StashFull
      end
  | None =>
      match add_sigs (st_identities s) [] sigs with
      | (ids, acc, ok) =>
          put (with_identities ids s) ;;!
          if negb ok then fail StashFull
          else if len acc =? 0 then fail StashFull
          else match cinsert U16MAX c acc (st_sigs s) with
               | Some m => do! s' <- get ;; put (with_sigs m s')
               | None => ret tt
               end
      end
  end.

(** 476-480 *)
Definition add_secret_seal (x : Seal) : STM bool :=
  do! s <- get ;;
  do! l <- grown (cpush U24MAX x (st_seals s)) ;;
  put (with_seals l s) ;;! ret (negb (smem x (st_seals s))).

(** ** The stash, stash.rs 295-687 *)

(** A failure is dropped ([.ok()]), what was written stays; a panic is not dropped *)
Definition attempt {A} (m : STM A) : STM unit :=
  fun s => match m s with
           | (s', Panic) => (s', Panic)
           | (s', _) => (s', Ok tt)
           end.

(** 436-477 *)
Definition consume_kit (k : Kit) : STM unit :=
  consume_types (k_types k) ;;!
  mfor (fun l => replace_lib l ;;! ret tt) (k_scripts k) ;;!
  mfor (fun x => replace_schema x ;;! ret tt) (k_schemata k) ;;!
  mfor (fun x => replace_iface x ;;! ret tt) (k_ifaces k) ;;!
  mfor (fun x => replace_iimpl x ;;! ret tt) (k_impls k) ;;!
  mfor add_supplement (k_suppl k) ;;!
  mfor (fun p => attempt (import_sigs (fst p) (snd p))) (k_signatures k).

(** 479-489 *)
Definition resolve_secrets (H : Hashes) (s : MemStash) (c : Consignment) : result StashError Consignment :=
  reveal_terminal_seals H (fun secret => Ok (seal_secret H s secret)) c.

(** 647-660 *)
Definition consume_witness (w : SealWitness) : STM bool :=
  do! s <- get ;;
  do! w' <- (match mget (sw_id w) (st_witnesses s) with
             | Some old =>
                 do! p <- lift (rmap_err StashWitnessMerge (merge_xpub (sw_public old) (sw_public w))) ;;
                 do! a <- lift (rmap_err StashAnchor (merge_anchors (sw_anchors old) (sw_anchors w))) ;;
                 ret {| sw_public := p; sw_anchors := a |}
             | None => ret w
             end) ;;
  replace_witness w'.

(** 662-673 *)
Definition consume_bundle (H : Hashes) (b : Bundle) : STM bool :=
  do! s <- get ;;
  do! b' <- (match mget (bundle_id H b) (st_bundles s) with
             | Some old => lift (rmap_err StashMerge (merge_bundle H old b))
             | None => ret b
             end) ;;
  replace_bundle H b'.

(** 563-571: what one bundle adds to the anchors of its witness *)
Definition anchor_bundle (H : Hashes) (K : Merkle) (cid : N) (p : EAnchor * Bundle)
  : STM (CloseMethod * Anchor) :=
  let bid := bundle_id H (snd p) in
  consume_bundle H (snd p) ;;!
  do! root <- lift (ok_or StashMerkle (mk_with K (ea_mpc (fst p)) cid bid)) ;;
  ret (dp_method (ea_dbc (fst p)),
       {| an_root := root; an_known := [(cid, bid)]; an_dbc := dp_data (ea_dbc (fst p)) |}).

(** 562-571: the loop over the one or two bundles, collecting anchors *)
Fixpoint anchor_all (H : Hashes) (K : Merkle) (cid : N) (l : list (EAnchor * Bundle))
  : STM (list (CloseMethod * Anchor)) :=
  match l with
  | [] => ret []
  | p :: l' => do! a <- anchor_bundle H K cid p ;;
               do! r <- anchor_all H K cid l' ;; ret (a :: r)
  end.

(** 573-637: the anchors are popped from the end; two of one method panic, as does
    none at all ([unwrap] at 573) *)
Definition anchors_of (l : list (CloseMethod * Anchor)) : STM AnchorSet :=
  match rev l with
  | [(OpretFirst, a)] => ret (ASOpret a)
  | [(TapretFirst, a)] => ret (ASTapret a)
  | (TapretFirst, t) :: (OpretFirst, o) :: _ => ret (ASDouble t o)
  | (OpretFirst, o) :: (TapretFirst, t) :: _ => ret (ASDouble t o)
  | _ => panic
  end.

(** 548-645 *)
Definition consume_witness_bundle (H : Hashes) (K : Merkle) (cid : N) (w : WitnessBundle) : STM unit :=
  do! l <- anchor_all H K cid (anchored_iter (wb_bundles w)) ;;
  do! a <- anchors_of l ;;
  consume_witness {| sw_public := wb_witness w; sw_anchors := a |} ;;! ret tt.

(** 521-532, collecting into a set ordered by id: the first of equal ids stays *)
Definition set_by {A} (key : A -> N) (l : list A) : list A :=
  mvals (fold_left (fun m x => if mhas (key x) m then m else minsert (key x) x m) l []).

(** 521-546: the kit carried by a consignment *)
Definition kit_of (c : Consignment) : Kit :=
  {| k_ifaces := set_by if_id (map fst (c_ifaces c));
     k_schemata := [c_schema c];
     k_impls := set_by im_id (map snd (c_ifaces c));
     k_suppl := c_supplements c; k_types := c_types c; k_scripts := c_scripts c;
     k_signatures := c_signatures c |}.

(** 497-501 *)
Definition consume_genesis (H : Hashes) (g : Operation) : STM unit :=
  do! s <- get ;;
  do! g' <- (match mget (contract_id H g) (st_geneses s) with
             | Some old => lift (rmap_err StashMerge (merge_op H old g))
             | None => ret g
             end) ;;
  replace_genesis H g' ;;! ret tt.

(** 503-511 *)
Definition consume_extension (H : Hashes) (e : Operation) : STM unit :=
  do! s <- get ;;
  do! e' <- (match mget (op_id H e) (st_extensions s) with
             | Some old => lift (rmap_err StashMerge (merge_op H old e))
             | None => ret e
             end) ;;
  replace_extension H e' ;;! ret tt.

(** 491-546 *)
Definition consume_consignment (H : Hashes) (K : Merkle) (c : Consignment) : STM unit :=
  let cid := contract_id H (c_genesis c) in
  consume_genesis H (c_genesis c) ;;!
  mfor (consume_extension H) (c_extensions c) ;;!
  mfor (consume_witness_bundle H K cid) (c_bundles c) ;;!
  mfor (fun p => replace_attachment (fst p) (snd p) ;;! ret tt) (c_attachments c) ;;!
  consume_kit (kit_of c).

(** 675-687: in memory, beginning a transaction does nothing here and committing writes
    the file (StockModel.v); a full set reaches [rollback_transaction], which panics
    (memory.rs 171) *)
Definition store_secret_seal (x : Seal) : STM bool :=
  fun s => match add_secret_seal x s with
           | (s', Err _) => (s', Panic)
           | r => r
           end.

(** Everything a user can do to a stash *)
Inductive StashCall :=
| ShConsignment (c : Consignment)
| ShKit (k : Kit)
| ShWitness (w : SealWitness)
| ShBundle (b : Bundle)
| ShSeal (x : Seal)
| ShTrust (id : N) (l : TrustLevel).

Definition stash_call (H : Hashes) (K : Merkle) (c : StashCall) : STM unit :=
  match c with
  | ShConsignment c => consume_consignment H K c
  | ShKit k => consume_kit k
  | ShWitness w => consume_witness w ;;! ret tt
  | ShBundle b => consume_bundle H b ;;! ret tt
  | ShSeal x => store_secret_seal x ;;! ret tt
  | ShTrust id l => set_trust id l
  end.

(** The stash after calls, whether they succeeded or not *)
Definition stash_after (H : Hashes) (K : Merkle) (s : MemStash) (l : list StashCall) : MemStash :=
  fold_left (fun s c => fst (stash_call H K c s)) l s.
