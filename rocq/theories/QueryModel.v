(** * Listing and opening contracts and builders: src/persistence/stock.rs 477-701,
    src/persistence/stash.rs 320-434, src/persistence/memory.rs 186-290, src/info.rs *)
From Coq Require Import Ascii String.
From Verif Require Import Base Str Core SupplModel ContainerModel PIndexModel StateModel StashModel StockModel ConsignModel IfaceModel BuilderModel
  ComposeModel.
Local Open Scope list_scope.
Local Open Scope N_scope.

(** What is read of records the model keeps by their id: the head of a genesis ([op_head]), who
    developed a definition and when, the annotations of interfaces; and the clock *)
Record Heads := {
  hd_genesis : Operation -> GenesisHead;
  hd_schema : SchemaRec -> N * N * Z;        (* name, developer, timestamp *)
  hd_iface : IfaceRec -> N * N * Z;          (* version, developer, timestamp *)
  hd_impl : ImplRec -> N * Z;                (* developer, timestamp *)
  hd_class : blob -> option N; hd_features : blob -> option (oset N);
  hd_is_date : Z -> bool; hd_now : Z
}.

(** [Utc.timestamp_opt(t, 0).single().unwrap_or_else(Utc::now)], as seconds *)
Definition date (h : Heads) (t : Z) : Z := if hd_is_date h t then t else hd_now h.

(** ** Infos, info.rs *)

(** iface.rs 94-100 ([IfaceRef]) *)
Inductive IfaceRef := RefName (n : N) | RefId (id : N).

(** 72-82 ([IfaceInfo]) *)
Record IfaceInfo := {
  ii_id : N; ii_version : N; ii_name : N; ii_standard : option N; ii_features : oset N; ii_developer : N; ii_created : Z;
  ii_inherits : list IfaceRef; ii_default : option N
}.
(** 106-134 ([IfaceInfo::with]) *)
Definition iface_info_with (D : Defs) (h : Heads) (i : IfaceRec) (standard : option N) (features : oset N) (names : omap N N) : IfaceInfo :=
  {| ii_id := if_id i; ii_version := fst (fst (hd_iface h i)); ii_name := if_name i; ii_standard := standard; ii_features := features;
     ii_developer := snd (fst (hd_iface h i)); ii_created := date h (snd (hd_iface h i));
     ii_inherits := map (fun id => match mget id names with Some n => RefName n | None => RefId id end) (if_inherits i);
     ii_default := ff_default (df_iface D i) |}.
(** 85-104 ([IfaceInfo::new]) *)
Definition ANNOT_CLASS : str := lit "Standard"%string.
Definition ANNOT_FEATURES : str := lit "Features"%string.
Definition iface_info (D : Defs) (h : Heads) (i : IfaceRec) (names : omap N N) (suppl : option SupplRec) : IfaceInfo :=
  match suppl with
  | None => iface_info_with D h i None [] names
  | Some x =>
      iface_info_with D h i (suppl_get_default_opt (hd_class h) (df_suppl D x) SubItself ANNOT_CLASS)
        match suppl_get_default_opt (hd_features h) (df_suppl D x) SubItself ANNOT_FEATURES with Some l => l | None => [] end names
  end.

(** 232-256 ([ImplInfo]) *)
Record ImplInfo := { mi_id : N; mi_iface : N; mi_name : N; mi_developer : N; mi_created : Z }.
Definition impl_info (h : Heads) (name : N) (im : ImplRec) : ImplInfo :=
  {| mi_id := im_id im; mi_iface := im_iface im; mi_name := name; mi_developer := fst (hd_impl h im); mi_created := date h (snd (hd_impl h im)) |}.
(** 188-215 ([SchemaInfo]) *)
Record SchemaInfo := { si_id : N; si_name : N; si_developer : N; si_created : Z; si_implements : list ImplInfo }.
Definition schema_info (h : Heads) (si : SchemaIfaces) : SchemaInfo :=
  let sc := si_schema si in
  {| si_id := sch_id sc; si_name := fst (fst (hd_schema h sc)); si_developer := snd (fst (hd_schema h sc)); si_created := date h (snd (hd_schema h sc));
     si_implements := map (fun p => impl_info h (fst p) (snd p)) (si_impls si) |}.
(** 273-301 ([ContractInfo]) *)
Record ContractInfo := { ci_id : N; ci_schema : N; ci_issuer : N; ci_issued : Z; ci_testnet : bool; ci_liquid : bool }.
Definition info_with (H : Hashes) (h : Heads) (g : Operation) : ContractInfo :=
  {| ci_id := contract_id H g; ci_schema := g_schema g; ci_issuer := gh_issuer (hd_genesis h g);
     ci_issued := date h (gh_timestamp (hd_genesis h g)); ci_testnet := gh_testnet (hd_genesis h g); ci_liquid := gh_liquid (hd_genesis h g) |}.

(** ** Lookups, memory.rs *)

(** stock.rs 67-158, 196-210 ([ContractIfaceError]) as far as lookups give them *)
Inductive QueryError :=
| QStash (e : StashError) | QState (e : StateError) | QExtract (e : ConsignError)
| NoAbstractImpl (iface schema : N) | QNoIfaceImpl (schema iface : N).
Definition q_stash {A} : result StashError A -> result QueryError A := rmap_err QStash.
Definition q_state {A} : result StateError A -> result QueryError A := rmap_err QState.
Definition q_extract {A} : result ConsignError A -> result QueryError A := rmap_err QExtract.

(** 192-199 ([iface]) *)
Definition find_iface (s : MemStash) (r : IfaceRef) : result StashError IfaceRec :=
  match r with RefName n => iface_by_name s n | RefId id => iface_by_id s id end.
(** iface.rs 444-454 ([find_abstractable_impl]) *)
Definition abstractable_impl (i : IfaceRec) (si : SchemaIfaces) : option ImplRec := find_abstractable (impl_get si) (if_id i) (if_inherits i).

(** 213-234 ([impl_for]); [ids] are the interfaces of a class ([IFACE_IDS]) *)
Definition impl_for (s : MemStash) (ids : list N) (si : SchemaIfaces) : result QueryError ImplRec :=
  match find (fun im => existsb (N.eqb (im_iface im)) ids) (mvals (si_impls si)) with
  | Some im => Ok im
  | None =>
      match find_map (fun id => match iface_by_id s id with Ok i => abstractable_impl i si | _ => None end) ids with
      | Some im => Ok im
      | None => match ids with [] => Panic | id :: _ => Err (NoAbstractImpl id (sch_id (si_schema si))) end
      end
  end.
(** 204-211 ([schemata_by]) *)
Definition schemata_by (s : MemStash) (ids : list N) : result QueryError (list SchemaIfaces) :=
  rfold (fun acc si => match impl_for s ids si with Ok _ => Ok (acc ++ [si]) | Err _ => Ok acc | Panic => Panic end) [] (stash_schemata s).
(** 277-283 ([geneses_by]) *)
Definition geneses_by (s : MemStash) (ids : list N) : result QueryError (list Operation) :=
  let! l := schemata_by s ids in
  Ok (flat_map (fun si => filter (fun g => sch_id (si_schema si) =? g_schema g) (stash_geneses s)) l).

(** ** Listing, stock.rs *)

(** 477-491 ([ifaces]) *)
Definition ifaces_info (D : Defs) (h : Heads) (s : MemStash) : list IfaceInfo :=
  let names := fold_left (fun m i => minsert (if_id i) (if_name i) m) (stash_ifaces s) [] in
  map (fun i => iface_info D h i names (stash_supplement s (TagIface, if_id i))) (stash_ifaces s).
(** 495-497 ([schemata]) *)
Definition schemata_info (h : Heads) (s : MemStash) : list SchemaInfo := map (schema_info h) (stash_schemata s).
(** 502-506 ([contracts]) *)
Definition contracts (H : Hashes) (h : Heads) (s : Stock) : list ContractInfo := map (info_with H h) (stash_geneses (sk_stash s)).
(** 549-554 ([contract_info]) *)
Definition contract_info (H : Hashes) (h : Heads) (s : Stock) (cid : N) : result QueryError ContractInfo :=
  let! g := q_stash (stash_genesis (sk_stash s) cid) in Ok (info_with H h g).

(** ** Opening contracts, stock.rs *)

(** contract.rs 234-240 ([ContractIface]) *)
Record ContractIface := { ct_state : MemContract; ct_schema : SchemaRec; ct_impl : ImplRec; ct_types : omap N N; ct_info : ContractInfo }.

(** 538-547 ([contract_raw]) *)
Definition contract_raw (H : Hashes) (h : Heads) (s : Stock) (cid : N) : result QueryError (SchemaIfaces * MemContract * ContractInfo) :=
  let! st := q_state (contract_state (sk_state s) cid) in
  let! si := q_stash (stash_schema (sk_stash s) (cs_schema (mc_state st))) in
  let! info := contract_info H h s cid in
  Ok (si, st, info).

(** 566-583 ([contract_iface_class]) *)
Definition contract_iface_class (H : Hashes) (h : Heads) (s : Stock) (ids : list N) (cid : N) : result QueryError ContractIface :=
  let! raw := contract_raw H h s cid in
  let si := fst (fst raw) in
  let! im := impl_for (sk_stash s) ids si in
  let! i := q_stash (iface_by_id (sk_stash s) (im_iface im)) in
  let! ex := q_extract (extract (sk_stash s) (si_schema si) [i]) in
  Ok {| ct_state := snd (fst raw); ct_schema := si_schema si; ct_impl := im; ct_types := fst ex; ct_info := snd raw |}.

(** 586-608 ([contract_iface]) *)
Definition contract_iface (H : Hashes) (h : Heads) (s : Stock) (cid : N) (r : IfaceRef) : result QueryError ContractIface :=
  let! raw := contract_raw H h s cid in
  let si := fst (fst raw) in
  let! i := q_stash (find_iface (sk_stash s) r) in
  let! im := ok_or (NoAbstractImpl (if_id i) (sch_id (si_schema si))) (abstractable_impl i si) in
  let! ex := q_extract (extract (sk_stash s) (si_schema si) [i]) in
  Ok {| ct_state := snd (fst raw); ct_schema := si_schema si; ct_impl := im; ct_types := fst ex; ct_info := snd raw |}.

(** 509-523 ([contracts_by]).  The information object of the class is made of the contract
    with its interface: the latter is listed here. *)
Definition contracts_by (H : Hashes) (h : Heads) (s : Stock) (ids : list N) : result QueryError (list ContractIface) :=
  let! gs := geneses_by (sk_stash s) ids in
  rfold (fun acc g => match contract_iface_class H h s ids (contract_id H g) with
                      | Ok ct => Ok (acc ++ [ct]) | Err _ => Ok acc | Panic => Panic end) [] gs.

(** ** Builders, stash.rs *)

(** 320-343 ([contract_builder]): the builder with what it is made for and its scripts *)
Definition contract_builder (D : Defs) (s : MemStash) (issuer schema : N) (r : IfaceRef) : result QueryError (BuildCtx * omap N N * CtBuilder) :=
  let! si := q_stash (stash_schema s schema) in
  let! i := q_stash (find_iface s r) in
  let! im := ok_or (QNoIfaceImpl schema (if_id i)) (impl_get si (if_id i)) in
  let! ex := q_extract (extract s (si_schema si) [i]) in
  Ok (build_ctx D (si_schema si) i im (fst ex), snd ex, cb_new issuer).

(** 381-385, 427-431 *)
Definition genesis_tags (X : BuildCtx) (b : TrBuilder) (tags : omap N N) : result QueryError TrBuilder :=
  rfold (fun b p => match t_call X b (TAssetTagRaw (fst p) (snd p)) with Ok b' => Ok b' | _ => Panic end) b tags.
(** 345-388 ([transition_builder]), by any reference to an interface; ComposeModel.v has it by
    name *)
Definition open_transition (D : Defs) (s : MemStash) (cid : N) (r : IfaceRef) (name : option N) : result QueryError (BuildCtx * TrBuilder) :=
  let! si := q_stash (contract_schema s cid) in
  let! i := q_stash (find_iface s r) in
  let! im := ok_or (QNoIfaceImpl (sch_id (si_schema si)) (if_id i)) (impl_get si (if_id i)) in
  let! g := q_stash (stash_genesis s cid) in
  let! ex := q_extract (extract s (si_schema si) [i]) in
  let X := build_ctx D (si_schema si) i im (fst ex) in
  let! b := match (match name with Some n => named_transition X cid n | None => default_transition X cid end) with
            | Ok b => Ok b
            | _ => Panic
            end in
  let! b := genesis_tags X b (df_tags D g) in
  Ok (X, b).
(** 390-434 ([blank_builder]) *)
Definition open_blank (D : Defs) (s : MemStash) (cid : N) (r : IfaceRef) : result QueryError (BuildCtx * TrBuilder) :=
  let! si := q_stash (contract_schema s cid) in
  let! i := q_stash (find_iface s r) in
  match si_impls si with
  | [] => Err (QNoIfaceImpl (sch_id (si_schema si)) (if_id i))
  | first :: _ =>
      let! g := q_stash (stash_genesis s cid) in
      let! ex := q_extract (extract s (si_schema si) [i]) in
      let! p := match impl_get si (if_id i) with
                | Some im => Ok (i, im)
                | None => let! i' := q_stash (find_iface s (RefName (fst first))) in Ok (i', snd first)
                end in
      let X := build_ctx D (si_schema si) (fst p) (snd p) (fst ex) in
      let! b := genesis_tags X (blank_transition cid) (df_tags D g) in
      Ok (X, b)
  end.

(** The builders of ComposeModel.v are these, by name. *)
Definition as_compose {A} (x : result QueryError A) : result ComposeError A :=
  rmap_err (fun e => match e with
                     | QStash e => CoStash e | QState e => CoState e | QExtract e => CoExtract e
                     | NoAbstractImpl i s => NoIfaceImpl s i | QNoIfaceImpl s i => NoIfaceImpl s i
                     end) x.
Lemma as_compose_bind {A B} (x : result QueryError A) (k : A -> result QueryError B) :
  as_compose (let! a := x in k a) = (let! a := as_compose x in as_compose (k a)).
Proof. destruct x; reflexivity. Qed.
Lemma genesis_tags_compose X tags : forall b, as_compose (genesis_tags X b tags) = add_tags X b tags.
Proof.
  unfold genesis_tags, add_tags. induction tags as [|p tags IH]; intros b; [reflexivity|]. cbn [rfold].
  destruct (t_call X b _) as [b'| |]; [apply IH|reflexivity|reflexivity].
Qed.
Lemma open_transition_compose D s cid iface name :
  as_compose (open_transition D s cid (RefName iface) name) = transition_builder D s cid iface name.
Proof.
  unfold open_transition, transition_builder. cbn [find_iface].
  destruct (contract_schema s cid) as [si| |]; [|reflexivity ..]. cbn.
  destruct (iface_by_name s iface) as [i| |]; [|reflexivity ..]. cbn.
  destruct (impl_get si (if_id i)) as [im|]; [|reflexivity]. cbn.
  destruct (stash_genesis s cid) as [g| |]; [|reflexivity ..]. cbn.
  destruct (extract s (si_schema si) [i]) as [ex| |]; [|reflexivity ..]. cbn.
  destruct name as [n|].
  - destruct (named_transition _ cid n) as [b| |]; [|reflexivity ..]. cbn. rewrite as_compose_bind, genesis_tags_compose.
    destruct (add_tags _ b (df_tags D g)); reflexivity.
  - destruct (default_transition _ cid) as [b| |]; [|reflexivity ..]. cbn. rewrite as_compose_bind, genesis_tags_compose.
    destruct (add_tags _ b (df_tags D g)); reflexivity.
Qed.
Lemma open_blank_compose D s cid iface : as_compose (open_blank D s cid (RefName iface)) = blank_builder D s cid iface.
Proof.
  unfold open_blank, blank_builder. cbn [find_iface].
  destruct (contract_schema s cid) as [si| |]; [|reflexivity ..]. cbn.
  destruct (iface_by_name s iface) as [i| |]; [|reflexivity ..]. cbn.
  destruct (si_impls si) as [|first rest]; [reflexivity|].
  destruct (stash_genesis s cid) as [g| |]; [|reflexivity ..]. cbn.
  destruct (extract s (si_schema si) [i]) as [ex| |]; [|reflexivity ..]. cbn.
  destruct (impl_get si (if_id i)) as [im|]; cbn.
  - rewrite as_compose_bind, genesis_tags_compose. destruct (add_tags _ _ (df_tags D g)); reflexivity.
  - destruct (iface_by_name s (fst first)) as [i'| |]; [|reflexivity ..]. cbn.
    rewrite as_compose_bind, genesis_tags_compose. destruct (add_tags _ _ (df_tags D g)); reflexivity.
Qed.
