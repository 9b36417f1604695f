(** * C60, C61: listing and opening contracts, builders opened from the stock *)
From Coq Require Import Ascii String.
From Verif Require Import Base StM Str Core Ser SupplModel ContainerModel PIndexModel StateModel StateSpec StateProofs StashModel StashSpec StashProofs StashProps StockModel StockSpec StockProofs StockProps
  ConsignModel ConsignProofs ConsignProps IfaceModel BuilderModel BuilderProps ComposeModel ComposeProps FoundProps QueryModel QuerySpec QueryProofs QueryMore.
Local Open Scope list_scope. Local Open Scope N_scope.

(** ** C60 *)

(** The list of contracts has exactly the known ones, each once, and says what their genesis says;
    the info of one contract is its entry there. *)
Theorem C60_contracts : forall (OG : OrdKey GlobalOut) H K h calls,
  let s := stock_after H K sk_empty calls in
  NoDup (map ci_id (contracts H h s)) /\
  (forall x, In x (contracts H h s) <-> exists g, stash_genesis (sk_stash s) (ci_id x) = Ok g /\ describes H h g x) /\
  (forall cid x, contract_info H h s cid = Ok x <-> In x (contracts H h s) /\ ci_id x = cid) /\
  (forall cid, contract_info H h s cid <> Panic).
Proof.
  intros OG H K h calls s. destruct (stock_filed H K calls) as [F So]. fold s in F, So.
  assert (M : map ci_id (contracts H h s) = mkeys (st_geneses (sk_stash s))).
  { unfold contracts, stash_geneses, mvals, mkeys. rewrite !map_map. apply map_ext_in. intros [k v] Hin. cbn. apply (fi_genesis _ _ F). apply In_mget; [apply So|exact Hin]. }
  assert (I : forall x, In x (contracts H h s) <-> exists g, stash_genesis (sk_stash s) (ci_id x) = Ok g /\ describes H h g x).
  { intros x. unfold contracts. rewrite in_map_iff. split.
    - intros (g & E & Hg). unfold stash_geneses in Hg. apply (in_vals _ _ (so_geneses _ So)) in Hg as (cid & Hc). exists g. apply info_describes in E. split; [|exact E].
      rewrite (de_id _ _ _ _ E). apply by_genesis. rewrite <- Hc. f_equal. exact (fi_genesis _ _ F _ _ Hc).
    - intros (g & E & D). exists g. split; [apply info_describes, D|]. unfold stash_geneses. apply (in_vals _ _ (so_geneses _ So)). exists (ci_id x). apply by_genesis, E. }
  split; [rewrite M; apply msorted_NoDup, So|]. split; [exact I|]. split.
  - intros cid x. rewrite I. split.
    + intros E. pose proof (info_id H h s F _ _ E) as Ei. split; [|exact Ei]. apply info_ok in E as (g & Eg & D). exists g. rewrite Ei. auto.
    + intros ((g & Eg & D) & <-). apply info_ok. exists g. auto.
  - intros cid. unfold contract_info, stash_genesis. destruct (mget cid _); discriminate.
Qed.

(** Opening a contract with an interface succeeds exactly if the contract is known with its
    schema, the interface is known and has an implementation or an ancestor which has one, and all
    types and libraries are there; it gives the state, schema and info of this contract, the best
    implementation, and the types of the schema and the interface.  It never panics. *)
Theorem C60_open : forall (OG : OrdKey GlobalOut) H K h calls cid r,
  let s := stock_after H K sk_empty calls in
  (forall ct, contract_iface H h s cid r = Ok ct <->
     exists si i libs, opened H h s cid si ct /\ find_iface (sk_stash s) r = Ok i /\ best_for i si (ct_impl ct) /\
       extracted (sk_stash s) (si_schema si) i (ct_types ct) libs) /\
  contract_iface H h s cid r <> Panic.
Proof.
  intros OG H K h calls cid r s. destruct (stock_filed H K calls) as [F So]. fold s in F, So. split; [intros ct; apply iface_open; assumption|apply iface_panic].
Qed.

(** The same for a class of interfaces; the types are those of the interface implemented. *)
Theorem C60_open_class : forall (OG : OrdKey GlobalOut) H K h calls ids cid,
  let s := stock_after H K sk_empty calls in
  (forall ct, contract_iface_class H h s ids cid = Ok ct <->
     exists si i libs, opened H h s cid si ct /\ class_impl (sk_stash s) ids si (ct_impl ct) /\ iface_by_id (sk_stash s) (im_iface (ct_impl ct)) = Ok i /\
       extracted (sk_stash s) (si_schema si) i (ct_types ct) libs) /\
  (ids <> [] -> contract_iface_class H h s ids cid <> Panic).
Proof.
  intros OG H K h calls ids cid s. destruct (stock_filed H K calls) as [F So]. fold s in F, So. split; [intros ct; apply class_open; assumption|intros N; apply class_panic, N].
Qed.

(** The error which says that there is no implementation names the interface asked for, or the
    first of the class, and the schema of the contract; it is given exactly then. *)
Lemma raw_not_abstract H h s cid i sc : contract_raw H h s cid <> Err (NoAbstractImpl i sc).
Proof.
  unfold contract_raw. destruct (contract_state _ _); cbn; try discriminate. destruct (stash_schema _ _); cbn; try discriminate.
  unfold contract_info. destruct (stash_genesis _ _); cbn; discriminate.
Qed.
Theorem C60_not_implemented : forall (OG : OrdKey GlobalOut) H K h calls cid r ids iface schema,
  let s := stock_after H K sk_empty calls in
  (contract_iface H h s cid r = Err (NoAbstractImpl iface schema) <->
     exists si st info i, contract_raw H h s cid = Ok (si, st, info) /\ schema = sch_id (si_schema si) /\
       find_iface (sk_stash s) r = Ok i /\ iface = if_id i /\ forall im, ~ best_for i si im) /\
  (contract_iface_class H h s ids cid = Err (NoAbstractImpl iface schema) <->
     exists si st info more, contract_raw H h s cid = Ok (si, st, info) /\ schema = sch_id (si_schema si) /\
       ids = iface :: more /\ forall im, ~ class_impl (sk_stash s) ids si im).
Proof.
  intros OG H K h calls cid r ids iface schema s. destruct (stock_filed H K calls) as [F So]. fold s in F, So.
  unfold contract_iface, contract_iface_class. destruct (contract_raw H h s cid) as [[[si st] info]|e|] eqn:Er; cbn [rbind fst snd].
  2: { split; (split; [intros E; injection E as ->; destruct (raw_not_abstract _ _ _ _ _ _ Er)|]);
       [intros (x1 & x2 & x3 & x4 & E & _)|intros (x1 & x2 & x3 & x4 & E & _)]; discriminate E. }
  2: { split; (split; [discriminate|]); [intros (x1 & x2 & x3 & x4 & E & _)|intros (x1 & x2 & x3 & x4 & E & _)]; discriminate E. }
  pose proof (proj1 (raw_ok _ _ _ _ _ _ _) Er) as (_ & Es & _). split.
  - destruct (find_iface (sk_stash s) r) as [i|e|] eqn:Ef; cbn [q_stash rmap_err rbind].
    2, 3: (split; [discriminate|]; intros (x1 & x2 & x3 & x4 & _ & _ & E & _); discriminate E).
    destruct (abstractable_impl i si) as [im|] eqn:Ea; cbn [ok_or rbind].
    + split; [destruct (extract _ _ _); discriminate|]. intros (x1 & x2 & x3 & x4 & E1 & _ & E2 & _ & N). apply Ok_inj in E1, E2. subst x4.
      injection E1 as <- <- <-. apply (abstractable_best H _ F So _ _ _ _ Es) in Ea. destruct (N _ Ea).
    + split.
      * intros E. injection E as <- <-. exists si, st, info, i. repeat (split; [reflexivity|]). apply (abstractable_none H _ F So _ _ _ Es), Ea.
      * intros (x1 & x2 & x3 & x4 & E1 & -> & E2 & -> & N). apply Ok_inj in E1, E2. subst x4. injection E1 as <- <- <-. reflexivity.
  - destruct (impl_for (sk_stash s) ids si) as [im|e|] eqn:Ei; cbn [rbind].
    + split; [destruct (iface_by_id _ _); cbn; try discriminate; destruct (extract _ _ _); discriminate|].
      intros (x1 & x2 & x3 & x4 & E1 & _ & _ & N). apply Ok_inj in E1. injection E1 as <- <- <-.
      apply (impl_for_ok H _ F So _ _ _ _ Es) in Ei. destruct (N _ Ei).
    + assert (Ee : exists i more, ids = i :: more /\ e = NoAbstractImpl i (sch_id (si_schema si))).
      { revert Ei. unfold impl_for. destruct (find _ _); [discriminate|]. destruct (find_map _ _); [discriminate|].
        destruct ids as [|i more]; [discriminate|]. intros E. injection E as <-. eauto. }
      destruct Ee as (i & more & -> & ->). split.
      * intros E. injection E as <- <-. exists si, st, info, more. repeat (split; [reflexivity|]). intros im X.
        apply (impl_for_ok H _ F So _ _ _ _ Es) in X. congruence.
      * intros (x1 & x2 & x3 & x4 & E1 & -> & E2 & N). apply Ok_inj in E1. injection E1 as <- <- <-. injection E2 as -> _. reflexivity.
    + split; [discriminate|]. intros (x1 & x2 & x3 & x4 & _ & _ & -> & _). apply impl_for_panic in Ei. discriminate Ei.
Qed.

(** The schema of an opened contract is the one its info names. *)
Theorem C60_schema : forall (OG : OrdKey GlobalOut) H K h calls cid si ct,
  collision_free H -> schemas_fit calls ->
  opened H h (stock_after H K sk_empty calls) cid si ct -> sch_id (ct_schema ct) = ci_schema (ct_info ct) /\ ci_id (ct_info ct) = cid.
Proof.
  intros OG H K h calls cid si ct CF Fit [O1 O2 O3 (g & Eg & D)]. destruct (stock_filed H K calls) as [F _]. split.
  - rewrite O3, (de_schema _ _ _ _ D), <- (state_schema H K calls cid _ _ CF Fit O1 Eg). apply by_schema in O2. exact (fi_schema _ _ F _ _ O2).
  - rewrite (de_id _ _ _ _ D). apply by_genesis in Eg. exact (fi_genesis _ _ F _ _ Eg).
Qed.

(** The contracts listed by a class of interfaces are exactly those which can be opened with it,
    each once. *)
Theorem C60_by_class : forall (OG : OrdKey GlobalOut) H K h calls ids,
  collision_free H -> schemas_fit calls -> ids <> [] ->
  let s := stock_after H K sk_empty calls in
  exists l, contracts_by H h s ids = Ok l /\ NoDup (map (fun ct => ci_id (ct_info ct)) l) /\
    forall ct, In ct l <-> exists cid, contract_iface_class H h s ids cid = Ok ct.
Proof.
  intros OG H K h calls ids CF Fit N s. destruct (stock_filed H K calls) as [F So]. fold s in F, So. apply by_class; [exact F|exact So|exact N|].
  intros cid st g. apply state_schema; assumption.
Qed.

(** An accepted contract is listed from then on, and its state and schema can be found, whatever
    is called later. *)
Theorem C60_accepted : forall (OG : OrdKey GlobalOut) H K h before c r after,
  collision_free H -> schemas_fit (before ++ SkAccept c r :: after) ->
  snd (stock_body H K (SkAccept c r) (stock_after H K sk_empty before)) = Ok tt ->
  let s := stock_after H K sk_empty (before ++ SkAccept c r :: after) in
  exists x si st, In x (contracts H h s) /\ ci_id x = op_id H (c_genesis c) /\ ci_schema x = sch_id (c_schema c) /\
    contract_raw H h s (op_id H (c_genesis c)) = Ok (si, st, x) /\ sch_id (si_schema si) = sch_id (c_schema c).
Proof.
  intros OG H K h before c r after CF Fit E s. destruct (accepted_found H K before c r after CF Fit E) as (g & st & si & E1 & E2 & E3 & E4). fold s in E1, E2, E4.
  destruct (stock_filed H K (before ++ SkAccept c r :: after)) as [F So]. fold s in F, So.
  assert (D : describes H h g (info_with H h g)) by (apply info_describes; reflexivity).
  assert (Ei : contract_info H h s (contract_id H (c_genesis c)) = Ok (info_with H h g)) by (apply info_ok; exists g; auto).
  exists (info_with H h g), si, st. pose proof (proj1 (proj1 (proj2 (proj2 (C60_contracts OG H K h (before ++ SkAccept c r :: after)))) _ _) Ei) as [X1 X2].
  split; [exact X1|]. split; [exact X2|]. split.
  - cbn. unfold g_schema. rewrite <- E3. symmetry. exact (state_schema H K _ _ _ _ CF Fit E2 E1).
  - split; [apply raw_ok; rewrite E3; auto|]. apply by_schema in E4. exact (fi_schema _ _ F _ _ E4).
Qed.

(** The list of interfaces *)
Theorem C60_interfaces : forall (OG : OrdKey GlobalOut) H K D h calls,
  let s := sk_stash (stock_after H K sk_empty calls) in
  NoDup (map ii_id (ifaces_info D h s)) /\
  forall x, In x (ifaces_info D h s) <-> exists i, iface_by_id s (ii_id x) = Ok i /\ listed D h s i x.
Proof.
  intros OG H K D h calls s. destruct (stock_filed H K calls) as [F So]. fold s in F, So. split.
  - assert (M : map ii_id (ifaces_info D h s) = mkeys (st_ifaces s)).
    { unfold ifaces_info, stash_ifaces, mvals, mkeys. rewrite !map_map. apply map_ext_in. intros [k v] Hin. cbn [fst snd].
      assert (X : if_id v = k) by (apply (fi_iface _ _ F), In_mget; [apply So|exact Hin]). unfold iface_info, iface_info_with. destruct (stash_supplement _ _); exact X. }
    rewrite M. apply msorted_NoDup, So.
  - intros x. unfold ifaces_info. rewrite in_map_iff. split.
    + intros (i & E & Hi). apply (info_listed H s F So) in E. exists i. split; [|exact E]. rewrite (li_id _ _ _ _ _ E).
      unfold stash_ifaces in Hi. apply (in_vals _ _ (so_ifaces _ So)) in Hi as (k & Ek). apply by_id. rewrite (fi_iface _ _ F _ _ Ek). exact Ek.
    + intros (i & Ei & L). exists i. split; [apply (info_listed H s F So), L|]. apply (in_vals _ _ (so_ifaces _ So)). exists (ii_id x). apply by_id, Ei.
Qed.

(** The list of schemata *)
Theorem C60_schemata : forall (OG : OrdKey GlobalOut) H K h calls,
  let s := sk_stash (stock_after H K sk_empty calls) in
  NoDup (map si_id (schemata_info h s)) /\
  forall x, In x (schemata_info h s) <-> exists si, stash_schema s (si_id x) = Ok si /\ schema_listed h si x.
Proof.
  intros OG H K h calls s. destruct (stock_filed H K calls) as [F So]. fold s in F, So. split.
  - assert (M : map si_id (schemata_info h s) = mkeys (st_schemata s)).
    { unfold schemata_info, stash_schemata, mvals, mkeys. rewrite !map_map. apply map_ext_in. intros [k v] Hin. cbn.
      apply (fi_schema _ _ F), In_mget; [apply So|exact Hin]. }
    rewrite M. apply msorted_NoDup, So.
  - intros x. unfold schemata_info. rewrite in_map_iff. split.
    + intros (i & E & Hi). apply schema_info_listed in E. exists i. split; [|exact E]. rewrite (sl_id _ _ _ E).
      unfold stash_schemata in Hi. apply (in_vals _ _ (so_schemata _ So)) in Hi as (k & Ek). apply by_schema. rewrite (fi_schema _ _ F _ _ Ek). exact Ek.
    + intros (i & Ei & L). exists i. split; [apply schema_info_listed, L|]. apply (in_vals _ _ (so_schemata _ So)). exists (si_id x). apply by_schema, Ei.
Qed.

(** *** Examples *)

(** Interface 7 "40" inherits interface 4 "30"; interface 3 is called "30" too. *)
Definition qx_child (id name parent : N) : IfaceRec := {| if_id := id; if_name := name; if_inherits := [parent]; if_types := [] |}.
Definition qx_heads : Heads :=
  {| hd_genesis := fun g => {| gh_timestamp := 100; gh_issuer := op_head g; gh_testnet := true; gh_liquid := false; gh_tags := [] |};
     hd_schema := fun sc => (sch_id sc + 1, 2, 100%Z); hd_iface := fun i => (1, 2, Z.of_N (if_id i)); hd_impl := fun _ => (2, 300%Z);
     hd_class := fun _ => None; hd_features := fun _ => None; hd_is_date := fun t => Z.ltb t 200; hd_now := 999%Z |}.
Definition qx_calls : list StockCall := [SkKit (ex_kit [ex_iface 3 30; ex_iface 4 30; qx_child 7 40 4] [ex_schema 5] [ex_impl 1 5 4])].

(** A parent shown by name may be another interface than the one found by that name. *)
Theorem C60_inherits_refuted : forall OG : OrdKey GlobalOut, ~ forall H K D h calls x n i,
  let s := sk_stash (stock_after H K sk_empty calls) in
  In x (ifaces_info D h s) -> iface_by_id s (ii_id x) = Ok i -> In (RefName n) (ii_inherits x) ->
  exists j, find_iface s (RefName n) = Ok j /\ In (if_id j) (if_inherits i).
Proof.
  intros OG Bad.
  set (s := sk_stash (stock_after bit_hashes cn_merkle sk_empty qx_calls)).
  assert (E : ifaces_info cx_defs qx_heads s = map (fun i => iface_info cx_defs qx_heads i [(3, 30); (4, 30); (7, 40)] None) [ex_iface 3 30; ex_iface 4 30; qx_child 7 40 4]) by (vm_compute; reflexivity).
  specialize (Bad bit_hashes cn_merkle cx_defs qx_heads qx_calls (iface_info cx_defs qx_heads (qx_child 7 40 4) [(3, 30); (4, 30); (7, 40)] None) 30 (qx_child 7 40 4)). cbv zeta in Bad.
  destruct Bad as (j & Ej & Hj).
  - fold s. rewrite E. right. right. left. reflexivity.
  - vm_compute. reflexivity.
  - left. reflexivity.
  - assert (X : find_iface (sk_stash (stock_after bit_hashes cn_merkle sk_empty qx_calls)) (RefName 30) = Ok (ex_iface 3 30)) by (vm_compute; reflexivity).
    rewrite X in Ej. apply Ok_inj in Ej as <-. cbn in Hj. destruct Hj as [Hj|[]]. discriminate Hj.
Qed.

(** Two contracts accepted, of a schema with an implementation *)
Lemma fd_fit : schemas_fit fd_calls.
Proof. intros c r [E|[E|[]]]; injection E as <- _; reflexivity. Qed.
Example C60_nonvacuous {OG : OrdKey GlobalOut} :
  let s := stock_after bit_hashes cn_merkle sk_empty fd_calls in
  collision_free bit_hashes /\ schemas_fit fd_calls /\
  snd (stock_body bit_hashes cn_merkle (SkAccept (fd_cons fd_two) yes_witness) (stock_after bit_hashes cn_merkle sk_empty [SkAccept (fd_cons fd_one) yes_witness])) = Ok tt /\
  len (contracts bit_hashes qx_heads s) = 2 /\
  (exists ct, contract_iface bit_hashes qx_heads s fd_first (RefName 1) = Ok ct /\ ct_impl ct = ex_impl 5 50 1 /\ ci_schema (ct_info ct) = 50) /\
  is_ok (contract_iface bit_hashes qx_heads s fd_first (RefName 2)) = false /\
  (exists l, contracts_by bit_hashes qx_heads s [9; 1] = Ok l /\ len l = 2) /\ contracts_by bit_hashes qx_heads s [9] = Ok [] /\
  (exists x y, schemata_info qx_heads (sk_stash s) = [x] /\ si_implements x = [y] /\ mi_created y = 999%Z /\ si_created x = 100%Z).
Proof.
  intros s. split; [apply bit_collision_free|]. split; [apply fd_fit|]. split; [vm_compute; reflexivity|]. split; [vm_compute; reflexivity|].
  split. { eexists. split; [vm_compute; reflexivity|]. split; reflexivity. }
  split; [vm_compute; reflexivity|].
  split. { eexists. split; [vm_compute; reflexivity|]. vm_compute. reflexivity. }
  split; [vm_compute; reflexivity|]. eexists. eexists. split; [vm_compute; reflexivity|]. split; [reflexivity|]. split; reflexivity.
Qed.

(** The implementation of an ancestor is taken if the interface has none of its own. *)
Example C60_ancestor_nonvacuous {OG : OrdKey GlobalOut} :
  let s := stock_after bit_hashes cn_merkle sk_empty
    [SkKit (ex_kit [ex_iface 4 30; qx_child 7 40 4] [ex_schema 50] [ex_impl 1 50 4]);
     SkAccept {| c_transfer := false; c_terminals := []; c_genesis := fd_one; c_extensions := []; c_schema := ex_schema 50; c_ifaces := [];
                 c_supplements := []; c_bundles := []; c_types := []; c_scripts := []; c_attachments := []; c_signatures := [] |} yes_witness] in
  (exists ct, contract_iface bit_hashes qx_heads s fd_first (RefId 7) = Ok ct /\ ct_impl ct = ex_impl 1 50 4) /\
  (exists ct, contract_iface_class bit_hashes qx_heads s [9; 7] fd_first = Ok ct /\ ct_impl ct = ex_impl 1 50 4).
Proof. split; eexists; (split; [vm_compute; reflexivity|]); reflexivity. Qed.

(** ** C61 *)

(** A builder of contracts is opened exactly if schema and interface are known, the interface is
    implemented, and all types and libraries are there; it is empty and is made for them.  Opening
    one never panics. *)
Theorem C61_contract : forall (OG : OrdKey GlobalOut) H K D calls issuer schema r,
  let s := sk_stash (stock_after H K sk_empty calls) in
  (forall X scripts b, contract_builder D s issuer schema r = Ok (X, scripts, b) <->
     exists si i im types, stash_schema s schema = Ok si /\ find_iface s r = Ok i /\ implements si (if_id i) im /\
       extracted s (si_schema si) i types scripts /\ made_for D X (si_schema si) i im types /\
       only_tags (cb_builder b) [] /\ cb_issuer b = issuer /\ cb_testnet b = true /\ cb_liquid b = false) /\
  contract_builder D s issuer schema r <> Panic.
Proof.
  intros OG H K D calls issuer schema r s. destruct (stock_filed H K calls) as [F So]. fold s in F, So. unfold contract_builder.
  destruct (stash_schema s schema) as [si|e|] eqn:Es; cbn [q_stash rmap_err rbind].
  2: split; [intros X sc b; split; [discriminate|intros (si & i & im & ty & E & _); discriminate E]|discriminate].
  2: exfalso; unfold stash_schema in Es; destruct (mget schema _); discriminate Es.
  destruct (find_iface s r) as [i|e|] eqn:Ei; cbn [q_stash rmap_err rbind].
  2: split; [intros X sc b; split; [discriminate|intros (si' & i & im & ty & _ & E & _); discriminate E]|discriminate].
  2: destruct (find_panic s r Ei).
  destruct (impl_get si (if_id i)) as [im|] eqn:Em; cbn [ok_or rbind].
  - pose proof (proj1 (get_implements H s F So _ _ _ _ Es) Em) as Im.
    pose proof (extract_panic s (si_schema si) [i]) as P. destruct (extract s (si_schema si) [i]) as [[ty lb]|e|] eqn:Ex; cbn [q_extract rmap_err rbind fst snd]; [| |congruence].
    + split; [|discriminate]. intros X sc b. split.
      * intros E. apply Ok_inj in E. injection E as <- <- <-. exists si, i, im, ty. split; [reflexivity|]. split; [reflexivity|]. split; [exact Im|]. split; [apply extract_iff, Ex|].
        split; [apply made|]. repeat split; reflexivity.
      * intros (si' & i' & im' & ty' & E1 & E2 & E3 & E4 & E5 & E6 & E7 & E8 & E9). apply Ok_inj in E1 as <-. apply Ok_inj in E2 as <-.
        rewrite (impl_unique H s F _ _ _ _ _ Es Im E3) in *. apply extract_iff in E4. rewrite Ex in E4. apply Ok_inj in E4. injection E4 as -> ->. apply made_same in E5 as ->. f_equal. f_equal.
        destruct b as [[g1 m1 r1 f1 d1 a1 t1] bt bl bi]. unfold only_tags in E6. cbn in *. destruct E6 as (? & ? & ? & ? & ? & ? & ?). subst. reflexivity.
    + split; [|discriminate]. intros X sc b. split; [discriminate|]. intros (si' & i' & im' & ty' & E1 & E2 & E3 & E4 & _). apply Ok_inj in E1 as <-. apply Ok_inj in E2 as <-.
      apply extract_iff in E4. congruence.
  - split; [|discriminate]. intros X sc b. split; [discriminate|]. intros (si' & i' & im' & ty' & E1 & E2 & E3 & _). apply Ok_inj in E1 as <-. apply Ok_inj in E2 as <-.
    apply (get_none H s F So _ _ _ Es) in Em. destruct (Em _ E3).
Qed.

(** What a builder of transitions needs: the genesis and schema of the contract, the interface with
    an implementation, and the types *)
Definition found (D : Defs) (s : MemStash) (cid : N) (r : IfaceRef) (X : BuildCtx) (g : Operation) : Prop :=
  exists si i im types libs, stash_genesis s cid = Ok g /\ stash_schema s (op_ty g) = Ok si /\ find_iface s r = Ok i /\ implements si (if_id i) im /\
    extracted s (si_schema si) i types libs /\ made_for D X (si_schema si) i im types.

Section Found.
Context (H : Hashes) (D : Defs) (s : MemStash) (F : filed H s) (So : stash_sorted s).
Lemma open_run cid r name : (exists X g, found D s cid r X g /\
    open_transition D s cid r name = let! b := match asked_builder X cid name with Ok b => Ok b | _ => Panic end in let! b := genesis_tags X b (df_tags D g) in Ok (X, b)) \/
  ((forall X g, ~ found D s cid r X g) /\ exists e, open_transition D s cid r name = Err e).
Proof.
  unfold open_transition, contract_schema. destruct (stash_genesis s cid) as [g|e|] eqn:Eg; cbn [q_stash rmap_err rbind].
  2: right; split; [intros X g (si & i & im & ty & l & E & _); congruence|eexists; reflexivity].
  2: exfalso; unfold stash_genesis in Eg; destruct (mget cid _); discriminate Eg.
  destruct (stash_schema s (op_ty g)) as [si|e|] eqn:Es; cbn [q_stash rmap_err rbind].
  2: right; split; [intros X g' (si & i & im & ty & l & E & E2 & _); congruence|eexists; reflexivity].
  2: exfalso; unfold stash_schema in Es; destruct (mget (op_ty g) _); discriminate Es.
  destruct (find_iface s r) as [i|e|] eqn:Ei; cbn [q_stash rmap_err rbind].
  2: right; split; [intros X g' (si' & i & im & ty & l & _ & _ & E & _); congruence|eexists; reflexivity].
  2: destruct (find_panic s r Ei).
  destruct (impl_get si (if_id i)) as [im|] eqn:Em; cbn [ok_or rbind].
  - pose proof (proj1 (get_implements H s F So _ _ _ _ Es) Em) as Im.
    pose proof (extract_panic s (si_schema si) [i]) as P. destruct (extract s (si_schema si) [i]) as [[ty lb]|e|] eqn:Ex; cbn [q_extract rmap_err rbind fst snd]; [| |congruence].
    + left. exists (build_ctx D (si_schema si) i im ty), g. split; [|destruct name; reflexivity].
      exists si, i, im, ty, lb. split; [exact Eg|]. split; [exact Es|]. split; [exact Ei|]. split; [exact Im|]. split; [apply extract_iff, Ex|apply made].
    + right. split; [|eexists; reflexivity]. intros X g' (si' & i' & im' & ty' & l & E0 & E1 & E2 & E3 & E4 & _). assert (g' = g) by congruence. subst g'. assert (si' = si) by congruence. subst si'. assert (i' = i) by congruence. subst i'.
      apply extract_iff in E4. congruence.
  - right. split; [|eexists; reflexivity]. intros X g' (si' & i' & im' & ty' & l & E0 & E1 & E2 & E3 & E4 & _). assert (g' = g) by congruence. subst g'. assert (si' = si) by congruence. subst si'. assert (i' = i) by congruence. subst i'.
    apply (get_none H s F So _ _ _ Es) in Em. destruct (Em _ E3).
Qed.
Lemma found_unique cid r X g X' g' : found D s cid r X g -> found D s cid r X' g' -> X = X' /\ g = g'.
Proof.
  intros (si & i & im & ty & l & E0 & E1 & E2 & E3 & E4 & E5) (si' & i' & im' & ty' & l' & E0' & E1' & E2' & E3' & E4' & E5').
  assert (g = g') by congruence. subst g'. assert (si' = si) by congruence. subst si'. assert (i' = i) by congruence. subst i'.
  rewrite (impl_unique H s F _ _ _ _ _ E1 E3 E3') in *. apply extract_iff in E4, E4'. rewrite E4 in E4'. apply Ok_inj in E4'. injection E4' as -> ->.
  apply made_same in E5, E5'. split; congruence.
Qed.
End Found.

(** A builder of transitions is opened exactly if all this is there and the implementation has the
    transition asked for; it is empty but for the asset tags of the genesis.  If there is no such
    transition, opening it panics, and this is the only way to panic. *)
Theorem C61_transition : forall (OG : OrdKey GlobalOut) H K D calls cid r name,
  tags_ok D ->
  let s := sk_stash (stock_after H K sk_empty calls) in
  (forall X b, open_transition D s cid r name = Ok (X, b) <->
     exists g ty, found D s cid r X g /\ asked X name ty /\ fresh_builder D cid ty g b) /\
  (open_transition D s cid r name = Panic <-> exists X g, found D s cid r X g /\ forall ty, ~ asked X name ty).
Proof.
  intros OG H K D calls cid r name T s. destruct (stock_filed H K calls) as [F So]. fold s in F, So.
  destruct (open_run H D s F So cid r name) as [(X & g & Fo & ->)|(No & e & ->)].
  - destruct (asked_builder X cid name) as [b0|e|] eqn:Ea; cbn [rbind].
    + apply asked_ok in Ea as (ty & A & ->). destruct (fresh_total D X cid ty g T) as [b1 Eb]. rewrite Eb. cbn [rbind]. split.
      * intros X' b. split.
        { intros E. apply Ok_inj in E. injection E as <- <-. exists g, ty. split; [exact Fo|]. split; [exact A|]. apply (fresh_made D X), Eb. exact T. }
        { intros (g' & ty' & Fo' & A' & B). destruct (found_unique H D s F _ _ _ _ _ _ Fo Fo') as [<- <-].
          assert (Et : tb_new cid ty = tb_new cid ty').
          { assert (E1 : asked_builder X cid name = Ok (tb_new cid ty)) by (apply asked_ok; exists ty; auto).
            assert (E2 : asked_builder X cid name = Ok (tb_new cid ty')) by (apply asked_ok; exists ty'; auto). congruence. }
          injection Et as <-. apply (fresh_made D X) in B; [|exact T]. congruence. }
      * split; [discriminate|]. intros (X' & g' & Fo' & N). destruct (found_unique H D s F _ _ _ _ _ _ Fo Fo') as [<- <-]. destruct (N _ A).
    + split.
      * intros X' b. split; [discriminate|]. intros (g' & ty' & Fo' & A' & B). destruct (found_unique H D s F _ _ _ _ _ _ Fo Fo') as [<- <-].
        assert (E2 : asked_builder X cid name = Ok (tb_new cid ty')) by (apply asked_ok; exists ty'; auto). congruence.
      * split; [intros _|reflexivity]. exists X, g. split; [exact Fo|]. intros ty A.
        assert (E2 : asked_builder X cid name = Ok (tb_new cid ty)) by (apply asked_ok; exists ty; auto). congruence.
    + split.
      * intros X' b. split; [discriminate|]. intros (g' & ty' & Fo' & A' & B). destruct (found_unique H D s F _ _ _ _ _ _ Fo Fo') as [<- <-].
        assert (E2 : asked_builder X cid name = Ok (tb_new cid ty')) by (apply asked_ok; exists ty'; auto). congruence.
      * split; [intros _|reflexivity]. exists X, g. split; [exact Fo|]. intros ty A.
        assert (E2 : asked_builder X cid name = Ok (tb_new cid ty)) by (apply asked_ok; exists ty; auto). congruence.
  - split.
    + intros X b. split; [discriminate|]. intros (g & ty & Fo & _). destruct (No _ _ Fo).
    + split; [discriminate|]. intros (X & g & Fo & _). destruct (No _ _ Fo).
Qed.

(** It is not true that opening a builder never panics: an unknown name of a transition does. *)
Theorem C61_no_panic_refuted : forall OG : OrdKey GlobalOut, ~ forall H K D calls cid r name,
  tags_ok D -> open_transition D (sk_stash (stock_after H K sk_empty calls)) cid r name <> Panic.
Proof.
  intros OG Bad. apply (Bad bit_hashes cn_merkle cx_defs fd_calls fd_first (RefName 1) (Some 77)).
  - intros g. split; [repeat constructor|vm_compute; discriminate].
  - vm_compute. reflexivity.
Qed.

(** A blank builder: the interface asked for with its implementation, or else the first
    implementation of the schema with the interface found by the name under which it is filed.
    The types are those of the interface asked for. *)
Definition blank_found (D : Defs) (s : MemStash) (cid : N) (r : IfaceRef) (X : BuildCtx) (g : Operation) : Prop :=
  exists si i j im types libs, stash_genesis s cid = Ok g /\ stash_schema s (op_ty g) = Ok si /\ find_iface s r = Ok i /\
    ((j = i /\ implements si (if_id i) im) \/
     (unimplemented si (if_id i) /\ exists name, find_iface s (RefName name) = Ok j /\ mget name (si_impls si) = Some im /\
        forall name' im', mget name' (si_impls si) = Some im' -> name <= name')) /\
    extracted s (si_schema si) i types libs /\ made_for D X (si_schema si) j im types.
Lemma blank_found_unique H D s cid r X g X' g' : filed H s -> blank_found D s cid r X g -> blank_found D s cid r X' g' -> X = X' /\ g = g'.
Proof.
  intros F (si & i & j & im & ty & l & E0 & E1 & E2 & E3 & E4 & E5) (si' & i' & j' & im' & ty' & l' & E0' & E1' & E2' & E3' & E4' & E5').
  assert (g = g') by congruence. subst g'. assert (si' = si) by congruence. subst si'. assert (i' = i) by congruence. subst i'.
  assert (Ej : j = j' /\ im = im').
  { destruct E3 as [[-> I]|(U & n & N1 & N2 & N3)], E3' as [[-> I']|(U' & n' & N1' & N2' & N3')].
    - split; [reflexivity|]. exact (impl_unique H s F _ _ _ _ _ E1 I I').
    - destruct (U' _ I).
    - destruct (U _ I').
    - assert (n = n') by (assert (n <= n') by (eapply N3; exact N2'); assert (n' <= n) by (eapply N3'; exact N2); lia). subst n'. split; congruence. }
  destruct Ej as [<- <-]. apply extract_iff in E4, E4'. rewrite E4 in E4'. apply Ok_inj in E4'. injection E4' as -> ->.
  apply made_same in E5, E5'. split; congruence.
Qed.
Theorem C61_blank_partial : forall (OG : OrdKey GlobalOut) H K D calls cid r,
  tags_ok D ->
  let s := sk_stash (stock_after H K sk_empty calls) in
  (forall X b, open_blank D s cid r = Ok (X, b) <-> exists g, blank_found D s cid r X g /\ fresh_builder D cid U16MAX g b) /\
  open_blank D s cid r <> Panic.
Proof.
  intros OG H K D calls cid r T s. destruct (stock_filed H K calls) as [F So]. fold s in F, So.
  assert (Y : forall X g, blank_found D s cid r X g -> open_blank D s cid r = (let! b := genesis_tags X (blank_transition cid) (df_tags D g) in Ok (X, b)) ->
    (forall X b, open_blank D s cid r = Ok (X, b) <-> exists g, blank_found D s cid r X g /\ fresh_builder D cid U16MAX g b) /\ open_blank D s cid r <> Panic).
  { intros X g Fo ->. unfold blank_transition, BLANK. destruct (fresh_total D X cid U16MAX g T) as [b1 Eb]. rewrite Eb. cbn [rbind]. split; [|discriminate]. intros X' b. split.
    - intros E. apply Ok_inj in E. injection E as <- <-. exists g. split; [exact Fo|]. apply (fresh_made D X), Eb. exact T.
    - intros (g' & Fo' & B). destruct (blank_found_unique H D s _ _ _ _ _ _ F Fo Fo') as [<- <-]. apply (fresh_made D X) in B; [|exact T]. congruence. }
  assert (N : (forall X g, ~ blank_found D s cid r X g) -> (exists e, open_blank D s cid r = Err e) ->
    (forall X b, open_blank D s cid r = Ok (X, b) <-> exists g, blank_found D s cid r X g /\ fresh_builder D cid U16MAX g b) /\ open_blank D s cid r <> Panic).
  { intros No (e & ->). split; [|discriminate]. intros X b. split; [discriminate|]. intros (g & Fo & _). destruct (No _ _ Fo). }
  revert Y N. unfold open_blank, contract_schema. intros Y N.
  destruct (stash_genesis s cid) as [g|e|] eqn:Eg; cbn [q_stash rmap_err rbind] in *.
  2: apply N; [intros X g (si & i & j & im & ty & l & E & _); congruence|eexists; reflexivity].
  2: exfalso; unfold stash_genesis in Eg; destruct (mget cid _); discriminate Eg.
  destruct (stash_schema s (op_ty g)) as [si|e|] eqn:Es; cbn [q_stash rmap_err rbind] in *.
  2: apply N; [intros X g' (si & i & j & im & ty & l & E & E2 & _); congruence|eexists; reflexivity].
  2: exfalso; unfold stash_schema in Es; destruct (mget (op_ty g) _); discriminate Es.
  destruct (find_iface s r) as [i|e|] eqn:Ei; cbn [q_stash rmap_err rbind] in *.
  2: apply N; [intros X g' (si' & i & j & im & ty & l & _ & _ & E & _); congruence|eexists; reflexivity].
  2: destruct (find_panic s r Ei).
  pose proof (proj1 (by_schema s _ _) Es) as Em. pose proof (so_impls _ So _ _ Em) as Sm.
  destruct (si_impls si) as [|[n0 im0] rest] eqn:Eimpls.
  { apply N; [|eexists; reflexivity]. intros X g' (si' & i' & j & im & ty & l & E0 & E1 & E2 & E3 & _). assert (g' = g) by congruence. subst g'. assert (si' = si) by congruence. subst si'.
    destruct E3 as [[_ (n & E3 & _)]|(_ & n & _ & E3 & _)]; rewrite Eimpls in E3; discriminate E3. }
  pose proof (extract_panic s (si_schema si) [i]) as P. destruct (extract s (si_schema si) [i]) as [[ty lb]|e|] eqn:Ex; cbn [q_extract rmap_err rbind fst snd] in *; [| |congruence].
  2: { apply N; [|eexists; reflexivity]. intros X g' (si' & i' & j & im & ty' & l & E0 & E1 & E2 & E3 & E4 & _). assert (g' = g) by congruence. subst g'. assert (si' = si) by congruence. subst si'.
       assert (i' = i) by congruence. subst i'. apply extract_iff in E4. congruence. }
  apply extract_iff in Ex as Xx.
  destruct (impl_get si (if_id i)) as [im|] eqn:Eim; cbn [rbind fst snd] in *.
  - apply (Y (build_ctx D (si_schema si) i im ty) g); [|reflexivity]. exists si, i, i, im, ty, lb. split; [exact Eg|]. split; [exact Es|]. split; [exact Ei|].
    split; [left; split; [reflexivity|apply (get_implements H s F So _ _ _ _ Es), Eim]|]. split; [exact Xx|apply made].
  - apply (get_none H s F So _ _ _ Es) in Eim.
    assert (Hmin : forall name' im', mget name' (si_impls si) = Some im' -> n0 <= name').
    { intros n' im' E'. rewrite Eimpls in E'. cbn [mget] in E'. destruct (keqb_spec n' n0) as [->|Ne]; [lia|]. pose proof (msorted_inv _ _ Sm) as [_ Fl]. rewrite Forall_forall in Fl.
      apply mget_In, Fl in E'. unfold key_lt in E'. cbn [fst] in E'. apply N_lt in E'. apply N.lt_le_incl. exact E'. }
    assert (H0 : mget n0 (si_impls si) = Some im0) by (rewrite Eimpls; cbn [mget]; rewrite keqb_refl; reflexivity).
    destruct (find_iface s (RefName n0)) as [j|e|] eqn:Ej; cbn [q_stash rmap_err rbind fst snd] in *.
    + apply (Y (build_ctx D (si_schema si) j im0 ty) g); [|reflexivity]. exists si, i, j, im0, ty, lb. split; [exact Eg|]. split; [exact Es|]. split; [exact Ei|].
      split; [right; split; [exact Eim|]; exists n0; auto|]. split; [exact Xx|apply made].
    + apply N; [|eexists; reflexivity]. intros X g' (si' & i' & j & im & ty' & l & E0 & E1 & E2 & E3 & _). assert (g' = g) by congruence. subst g'. assert (si' = si) by congruence. subst si'.
      assert (i' = i) by congruence. subst i'. destruct E3 as [[_ E3]|(_ & n & E3 & E4 & E5)]; [destruct (Eim _ E3)|].
      assert (n = n0) by (assert (n <= n0) by (eapply E5; exact H0); assert (n0 <= n) by (eapply Hmin; exact E4); lia). congruence.
    + destruct (find_panic s _ Ej).
Qed.

(** The interface of a blank builder may not be the one its implementation is for ... *)
Definition qx_defs : Defs :=
  {| df_schema := df_schema cx_defs; df_suppl := df_suppl cx_defs; df_velocity := df_velocity cx_defs; df_tags := fun _ => []; df_layer := df_layer cx_defs;
     df_secret := df_secret cx_defs; df_name := df_name cx_defs; df_alloc := df_alloc cx_defs;
     df_fits := fun types id _ => mhas id types;
     df_iface := fun i => {| ff_name := if_name i; ff_inherits := []; ff_timestamp := Z.of_N (if_id i); ff_metadata := []; ff_globals := []; ff_assigns := []; ff_valencies := [];
       ff_genesis := ff_genesis bx_iface; ff_transitions := []; ff_extensions := []; ff_default := None; ff_errors := [] |};
     df_impl := fun im => {| fm_schema := im_schema im; fm_iface := im_iface im; fm_timestamp := 5; fm_metadata := []; fm_globals := []; fm_assigns := [];
       fm_valencies := []; fm_transitions := []; fm_extensions := []; fm_errors := [] |} |}.
Definition qx_typed (id name : N) (types : oset N) : IfaceRec := {| if_id := id; if_name := name; if_inherits := []; if_types := types |}.
(** Interfaces 3 and 4 are called 30, the schema of the accepted contract implements 4; interface 9
    is not implemented. *)
Definition qx_blank : list StockCall :=
  [SkKit (ex_kit [ex_iface 3 30; qx_typed 4 30 [1]; ex_iface 9 90] [ex_schema 50] [ex_impl 1 50 4]);
   SkAccept {| c_transfer := false; c_terminals := []; c_genesis := fd_one; c_extensions := []; c_schema := ex_schema 50; c_ifaces := [];
               c_supplements := []; c_bundles := []; c_types := []; c_scripts := []; c_attachments := []; c_signatures := [] |} yes_witness].
Lemma qx_tags : tags_ok qx_defs.
Proof. intros g. split; [constructor|vm_compute; discriminate]. Qed.
Theorem C61_blank_iface_refuted : forall OG : OrdKey GlobalOut, ~ forall H K D calls cid r X b,
  tags_ok D -> (forall i, ff_timestamp (df_iface D i) = Z.of_N (if_id i)) -> (forall im, fm_iface (df_impl D im) = im_iface im) ->
  open_blank D (sk_stash (stock_after H K sk_empty calls)) cid r = Ok (X, b) -> ff_timestamp (bc_iface X) = Z.of_N (fm_iface (bc_impl X)).
Proof.
  intros OG Bad. set (s := sk_stash (stock_after bit_hashes cn_merkle sk_empty qx_blank)).
  destruct (open_blank qx_defs s fd_first (RefId 9)) as [[X b]| |] eqn:E.
  - specialize (Bad bit_hashes cn_merkle qx_defs qx_blank fd_first (RefId 9) X b qx_tags (fun _ => eq_refl) (fun _ => eq_refl) E).
    assert (V : option_map (fun p => Z.eqb (ff_timestamp (bc_iface (fst p))) (Z.of_N (fm_iface (bc_impl (fst p))))) match open_blank qx_defs s fd_first (RefId 9) with Ok p => Some p | _ => None end = Some false) by (vm_compute; reflexivity).
    rewrite E in V. cbn [option_map fst] in V. rewrite Bad, Z.eqb_refl in V. discriminate V.
  - assert (V : is_ok (open_blank qx_defs s fd_first (RefId 9)) = true) by (vm_compute; reflexivity). rewrite E in V. discriminate V.
  - assert (V : is_ok (open_blank qx_defs s fd_first (RefId 9)) = true) by (vm_compute; reflexivity). rewrite E in V. discriminate V.
Qed.
(** ... and the types it checks data with may lack those of the interface it is made for. *)
Theorem C61_blank_types_refuted : forall OG : OrdKey GlobalOut, ~ forall H K D calls cid r X b i t,
  let s := sk_stash (stock_after H K sk_empty calls) in
  tags_ok D -> (forall i, ff_timestamp (df_iface D i) = Z.of_N (if_id i)) -> df_fits D = (fun types id _ => mhas id types) ->
  open_blank D s cid r = Ok (X, b) -> iface_by_id s (fm_iface (bc_impl X)) = Ok i -> In t (if_types i) -> bc_fits X t 0 = true.
Proof.
  intros OG Bad. set (s := sk_stash (stock_after bit_hashes cn_merkle sk_empty qx_blank)).
  destruct (open_blank qx_defs s fd_first (RefId 9)) as [[X b]| |] eqn:E.
  - assert (V : option_map (fun p => (bc_fits (fst p) 1 0, fm_iface (bc_impl (fst p)))) match open_blank qx_defs s fd_first (RefId 9) with Ok p => Some p | _ => None end = Some (false, 4)) by (vm_compute; reflexivity).
    rewrite E in V. cbn [option_map fst] in V. injection V as V1 V2.
    specialize (Bad bit_hashes cn_merkle qx_defs qx_blank fd_first (RefId 9) X b (qx_typed 4 30 [1]) 1 qx_tags (fun _ => eq_refl) eq_refl E). rewrite V2 in Bad.
    rewrite Bad in V1; [discriminate V1|vm_compute; reflexivity|left; reflexivity].
  - assert (V : is_ok (open_blank qx_defs s fd_first (RefId 9)) = true) by (vm_compute; reflexivity). rewrite E in V. discriminate V.
  - assert (V : is_ok (open_blank qx_defs s fd_first (RefId 9)) = true) by (vm_compute; reflexivity). rewrite E in V. discriminate V.
Qed.

Example C61_nonvacuous {OG : OrdKey GlobalOut} :
  let s := sk_stash (stock_after bit_hashes cn_merkle sk_empty fd_calls) in
  tags_ok cx_defs /\ is_ok (contract_builder cx_defs s 7 50 (RefName 1)) = true /\ is_ok (contract_builder cx_defs s 7 51 (RefName 1)) = false /\
  (exists X b, open_transition cx_defs s fd_first (RefName 1) (Some 20) = Ok (X, b) /\ tb_type b = 20 /\ ob_tags (tb_builder b) = [(10, 77)]) /\
  (exists X b, open_transition cx_defs s fd_first (RefId 1) None = Ok (X, b) /\ tb_type b = 20) /\
  (exists X b, open_blank cx_defs s fd_second (RefId 1) = Ok (X, b) /\ tb_type b = U16MAX /\ tb_contract b = fd_second).
Proof.
  intros s. split; [intros g; split; [repeat constructor|vm_compute; discriminate]|]. split; [vm_compute; reflexivity|]. split; [vm_compute; reflexivity|].
  split; [do 2 eexists; split; [vm_compute; reflexivity|]; split; vm_compute; reflexivity|].
  split; [do 2 eexists; split; [vm_compute; reflexivity|]; vm_compute; reflexivity|].
  do 2 eexists; split; [vm_compute; reflexivity|]; split; vm_compute; reflexivity.
Qed.

Print Assumptions C60_contracts.
Print Assumptions C60_open.
Print Assumptions C60_open_class.
Print Assumptions C60_not_implemented.
Print Assumptions C60_schema.
Print Assumptions C60_by_class.
Print Assumptions C60_accepted.
Print Assumptions C60_interfaces.
Print Assumptions C60_schemata.
Print Assumptions C60_inherits_refuted.
Print Assumptions C61_contract.
Print Assumptions C61_transition.
Print Assumptions C61_no_panic_refuted.
Print Assumptions C61_blank_partial.
Print Assumptions C61_blank_iface_refuted.
Print Assumptions C61_blank_types_refuted.
