(** * The stock: src/persistence/stock.rs, with its files (src/persistence/fs.rs) *)
From Verif Require Import Base StM Core ContainerModel PIndexModel StateModel StashModel.

(** stock.rs 364-372 ([Stock]) *)
Record Stock := { sk_stash : MemStash; sk_state : MemState; sk_index : MemIndex }.

(** stock.rs 398-403 ([Stock::in_memory]) *)
Definition sk_empty : Stock := {| sk_stash := st_empty; sk_state := ms_empty; sk_index := mi_empty |}.

(** stock.rs 67-158, 260-265 ([StockError], [FasciaError]) for the calls which change the
    stock.  [ProcessStopped] is not an error of the code: it says that the process ended
    at this point. *)
Inductive StockError :=
| SkStash (e : StashError)
| SkState (e : StateError)
| SkIndex (e : IndexError)
| InvalidBundle (cid bid : N)
| PersistenceFailed
| ProcessStopped.

Notation KM := (M Stock StockError).

(** Calls to the three parts *)
Definition on_stash {A} (m : M MemStash StashError A) : KM A := fun s =>
  let (x, r) := m (sk_stash s) in
  ({| sk_stash := x; sk_state := sk_state s; sk_index := sk_index s |}, rmap_err SkStash r).
Definition on_state {A} (m : M MemState StateError A) : KM A := fun s =>
  let (x, r) := m (sk_state s) in
  ({| sk_stash := sk_stash s; sk_state := x; sk_index := sk_index s |}, rmap_err SkState r).
Definition on_index {A} (m : M MemIndex IndexError A) : KM A := fun s =>
  let (x, r) := m (sk_index s) in
  ({| sk_stash := sk_stash s; sk_state := sk_state s; sk_index := x |}, rmap_err SkIndex r).

Section Body.
Context {OG : OrdKey GlobalOut}.

(** stock.rs 1302-1315 ([consume_consignment], for [import_contract] and
    [accept_transfer]), without the transaction.  The consignment has been validated
    before; validation is not modelled. *)
Definition accept_body (H : Hashes) (K : Merkle) (c : Consignment) (r : Resolver) : KM unit :=
  do! s <- get ;;
  do! c' <- lift (rmap_err SkStash (resolve_secrets H (sk_stash s) c)) ;;
  on_state (update_from_consignment H c' r) ;;!
  on_index (pindex_consignment H c') ;;!
  on_stash (consume_consignment H K c').

(** stock.rs 1339-1347: the known transitions are among those of the input map *)
Definition known_subset (b : Bundle) : bool :=
  forallb (fun id => existsb (N.eqb id) (mvals (b_inputs b))) (mkeys (b_known b)).

(** stock.rs 1328-1355 ([consume_fascia]) *)
Definition fascia_bundle (H : Hashes) (w : WitnessId) (r : Resolver) (p : N * Bundle) : KM unit :=
  (if known_subset (snd p) then ret tt else fail (InvalidBundle (fst p) (bundle_id H (snd p)))) ;;!
  on_index (pindex_bundle H (fst p) (snd p) w) ;;!
  on_state (update_from_bundle H (fst p) (snd p) w r) ;;!
  on_stash (consume_bundle H (snd p)) ;;! ret tt.
Definition fascia_body (H : Hashes) (f : Fascia) (r : Resolver) : KM unit :=
  on_stash (consume_witness {| sw_public := fa_witness f; sw_anchors := fa_anchor f |}) ;;!
  mfor (fascia_bundle H (fascia_witness_id f) r) (fascia_bundles f).

End Body.

(** ** Files *)

(** The strict encoding of one of the parts (crate strict_encoding) *)
Record Codec (A : Type) := { enc : A -> list N; dec : list N -> option A }.
Arguments enc {A}. Arguments dec {A}.
Record Codecs := { co_stash : Codec MemStash; co_state : Codec MemState; co_index : Codec MemIndex }.

(** fs.rs 30-53 ([FsBinStore]): three files, which may not exist *)
Record Disk := { d_stash : option (list N); d_state : option (list N); d_index : option (list N) }.

(** What happens when a file is written: it is written whole, an error is returned or the
    process ends, in both cases before the file was opened or after some bytes. *)
Inductive Io := IoDone | IoFail (at_byte : option nat) | IoStop (at_byte : option nat).
Record Ios := { io_stash : Io; io_state : Io; io_index : Io }.

Definition cut (at_byte : option nat) (bytes : list N) (old : option (list N)) : option (list N) :=
  match at_byte with None => old | Some n => Some (firstn n bytes) end.

(** [strict_serialize_to_file] (fs.rs 60-64, 73-77, 86-90): creating the file empties it,
    then the bytes are written *)
Definition write_file (bytes : list N) (io : Io) (old : option (list N))
  : option (list N) * result StockError unit :=
  match io with
  | IoDone => (Some bytes, Ok tt)
  | IoFail n => (cut n bytes old, Err PersistenceFailed)
  | IoStop n => (cut n bytes old, Err ProcessStopped)
  end.

(** [strict_deserialize_from_file] (fs.rs 55-58, 68-71, 81-84) *)
Definition read_file {A} (C : Codec A) (f : option (list N)) : result StockError A :=
  match f with
  | None => Err PersistenceFailed
  | Some bytes => ok_or PersistenceFailed (dec C bytes)
  end.

(** A process: its stock, and the files if it is persistent ([make_persistent], [load]).
    The flags kept by the crate nonasync are left out: every call below marks what it
    changes before changing it, and storing something marked writes the file.  Writing on
    drop ([autosave]) is not modelled. *)
Record Host := { ho_stock : Stock; ho_disk : option Disk }.
Notation HM := (M Host StockError).

(** memory.rs 161-172, 532-543, 1256-1267 ([commit_transaction]) *)
Definition commit_stash (C : Codecs) (io : Ios) : HM unit := fun h =>
  match ho_disk h with
  | None => (h, Ok tt)
  | Some d => let (f, r) := write_file (enc (co_stash C) (sk_stash (ho_stock h))) (io_stash io) (d_stash d) in
              ({| ho_stock := ho_stock h;
                  ho_disk := Some {| d_stash := f; d_state := d_state d; d_index := d_index d |} |}, r)
  end.
Definition commit_state (C : Codecs) (io : Ios) : HM unit := fun h =>
  match ho_disk h with
  | None => (h, Ok tt)
  | Some d => let (f, r) := write_file (enc (co_state C) (sk_state (ho_stock h))) (io_state io) (d_state d) in
              ({| ho_stock := ho_stock h;
                  ho_disk := Some {| d_stash := d_stash d; d_state := f; d_index := d_index d |} |}, r)
  end.
Definition commit_index (C : Codecs) (io : Ios) : HM unit := fun h =>
  match ho_disk h with
  | None => (h, Ok tt)
  | Some d => let (f, r) := write_file (enc (co_index C) (sk_index (ho_stock h))) (io_index io) (d_index d) in
              ({| ho_stock := ho_stock h;
                  ho_disk := Some {| d_stash := d_stash d; d_state := d_state d; d_index := f |} |}, r)
  end.

(** stock.rs 407-417 ([Stock::load]) *)
Definition load (C : Codecs) (d : Disk) : result StockError Stock :=
  let! stash := read_file (co_stash C) (d_stash d) in
  let! state := read_file (co_state C) (d_state d) in
  let! index := read_file (co_index C) (d_index d) in
  Ok {| sk_stash := stash; sk_state := state; sk_index := index |}.

(** stock.rs 443-451 ([Stock::store]) *)
Definition store (C : Codecs) (io : Ios) : HM unit :=
  commit_stash C io ;;! commit_state C io ;;! commit_index C io.

Definition in_memory {A} (m : KM A) : HM A := fun h =>
  let (s, r) := m (ho_stock h) in ({| ho_stock := s; ho_disk := ho_disk h |}, r).

(** An error on the way leads to [rollback_transaction], which panics in all three
    providers (memory.rs 171, 542, 1266) *)
Definition rolled_back {A} (m : HM A) : HM A := fun h =>
  match m h with
  | (h', Err PersistenceFailed) => (h', Panic)
  | r => r
  end.

(** stock.rs 1249-1276 ([store_transaction]): beginning a transaction succeeds and changes
    nothing here; a failure of [f] returns at once *)
Definition store_transaction (C : Codecs) (io : Ios) (f : KM unit) : HM unit :=
  in_memory f ;;!
  rolled_back (commit_index C io ;;! commit_state C io ;;! commit_stash C io).

(** ** Calls *)

Section Calls.
Context {OG : OrdKey GlobalOut}.

(** The calls by which a user changes a stock: stock.rs 1278-1284 ([import_kit]), 1286-1318,
    1328-1355, 1402-1407 ([store_secret_seal], stash.rs 675-687), 1409-1415
    ([update_witnesses], memory.rs 650-679), 443-451 ([store]) *)
Inductive StockCall :=
| SkAccept (c : Consignment) (r : Resolver)
| SkFascia (f : Fascia) (r : Resolver)
| SkKit (k : Kit)
| SkSeal (x : Seal)
| SkUpdate (r : Resolver) (after : N)
| SkStore.

Definition stock_call (H : Hashes) (K : Merkle) (C : Codecs) (io : Ios) (c : StockCall) : HM unit :=
  match c with
  | SkAccept c r => store_transaction C io (accept_body H K c r)
  | SkFascia f r => store_transaction C io (fascia_body H f r)
  | SkKit k => in_memory (on_stash (consume_kit k)) ;;! commit_stash C io
  | SkSeal x => in_memory (on_stash (store_secret_seal x)) ;;! commit_stash C io
  | SkUpdate r after => in_memory (on_state (update_witnesses r after)) ;;! commit_state C io
  | SkStore => store C io
  end.

(** The process after calls, whether they succeeded or not; a call after the process ended
    is not meant by this *)
Definition host_after (H : Hashes) (K : Merkle) (C : Codecs) (h : Host) (l : list (StockCall * Ios)) : Host :=
  fold_left (fun h p => fst (stock_call H K C (snd p) (fst p) h)) l h.

(** The stock alone, in memory *)
Definition stock_body (H : Hashes) (K : Merkle) (c : StockCall) : KM unit :=
  match c with
  | SkAccept c r => accept_body H K c r
  | SkFascia f r => fascia_body H f r
  | SkKit k => on_stash (consume_kit k)
  | SkSeal x => on_stash (store_secret_seal x) ;;! ret tt
  | SkUpdate r after => on_state (update_witnesses r after) ;;! ret tt
  | SkStore => ret tt
  end.
Definition stock_after (H : Hashes) (K : Merkle) (s : Stock) (l : list StockCall) : Stock :=
  fold_left (fun s c => fst (stock_body H K c s)) l s.
End Calls.
