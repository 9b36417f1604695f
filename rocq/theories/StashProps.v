(** * The stash: properties C48-C50 and the stash part of C26 *)
From Verif Require Import Base StM Core HashExists ContainerModel ContainerSpec ContainerProofs.
From Verif Require Import MergeSpec MergeProofs StashModel StashSpec StashProofs StashAgain.
Local Open Scope N_scope.

(** ** C48: definitions *)

(** Whatever is called, a known schema or interface stays what it is. *)
Theorem C48_definitions_kept : forall H K calls s id,
  (forall si, stash_schema s id = Ok si ->
     exists si', stash_schema (stash_after H K s calls) id = Ok si' /\ si_schema si' = si_schema si) /\
  (forall i, iface_by_id s id = Ok i -> iface_by_id (stash_after H K s calls) id = Ok i).
Proof.
  intros H K calls s id. split.
  - intros si E. unfold stash_schema in *.
    destruct (mget id (st_schemata s)) as [x|] eqn:Ex; [|discriminate]. apply Ok_inj in E as <-.
    destruct (calls_keep anything H K (fun t => exists si, mget id (st_schemata t) = Some si /\ si_schema si = si_schema x)) with (l := calls) (s := s)
      as (y & Ey & Es).
    + intros a b. apply schema_kept.
    + intros a id' l Ha. exact Ha.
    + intros. apply unguarded.
    + eauto.
    + rewrite Ey. eexists. split; [reflexivity|exact Es].
  - intros i E. unfold iface_by_id in *. destruct (mget id (st_ifaces s)) as [x|] eqn:Ex; [|discriminate]. apply Ok_inj in E as <-.
    assert (Ei : mget id (st_ifaces (stash_after H K s calls)) = Some x); [|rewrite Ei; reflexivity].
    apply (calls_keep anything H K (fun t => mget id (st_ifaces t) = Some x)).
    + intros a b. apply iface_kept.
    + intros a id' l Ha. exact Ha.
    + intros. apply unguarded.
    + exact Ex.
Qed.

(** What is looked up is what was asked for, and a known name is found. *)
Theorem C48_lookup : forall H K calls id,
  let s := stash_after H K st_empty calls in
  (forall si, stash_schema s id = Ok si -> sch_id (si_schema si) = id) /\
  (forall i, iface_by_id s id = Ok i -> if_id i = id) /\
  (forall i, iface_by_name s id = Ok i -> if_name i = id /\ iface_by_id s (if_id i) = Ok i) /\
  (forall i, iface_by_id s (if_id i) = Ok i -> exists j, iface_by_name s (if_name i) = Ok j) /\
  (forall si iface im, stash_schema s id = Ok si -> impl_get si iface = Some im ->
     im_schema im = id /\ im_iface im = iface).
Proof.
  intros H K calls id s. pose proof (filed_after H K calls) as F. fold s in F.
  assert (So : stash_sorted s) by (apply sorted_after, sorted_empty).
  split; [|split; [|split; [|split]]].
  - unfold stash_schema. intros si E. destruct (mget id (st_schemata s)) eqn:Ex; [|discriminate]. apply Ok_inj in E as <-.
    eapply fi_schema; eassumption.
  - unfold iface_by_id. intros i E. destruct (mget id (st_ifaces s)) eqn:Ex; [|discriminate]. apply Ok_inj in E as <-.
    eapply fi_iface; eassumption.
  - unfold iface_by_name, iface_by_id. intros i E. destruct (find _ _) eqn:Ef; [|discriminate]. apply Ok_inj in E as <-.
    apply find_some in Ef as [Hin En]. apply N.eqb_eq in En. split; [exact En|].
    unfold stash_ifaces, mvals in Hin. apply in_map_iff in Hin as ([k v] & <- & Hin). cbn [snd].
    apply In_mget in Hin; [|apply So]. rewrite (fi_iface _ _ F _ _ Hin), Hin. reflexivity.
  - unfold iface_by_name, iface_by_id. intros i E. destruct (mget (if_id i) (st_ifaces s)) eqn:Ex; [|discriminate]. apply Ok_inj in E as ->.
    assert (Ef : find (fun j => if_name j =? if_name i) (stash_ifaces s) <> None).
    { apply find_exists. exists i. split; [|apply N.eqb_refl]. unfold stash_ifaces, mvals. apply in_map_iff.
      exists (if_id i, i). split; [reflexivity|]. apply mget_In, Ex. }
    destruct (find _ _) as [j|]; [|congruence]. exists j. reflexivity.
  - unfold stash_schema, impl_get. intros si iface im E Ef. destruct (mget id (st_schemata s)) as [x|] eqn:Ex; [|discriminate]. apply Ok_inj in E as <-.
    apply find_some in Ef as [Hin En]. apply N.eqb_eq in En. split; [|exact En].
    unfold mvals in Hin. apply in_map_iff in Hin as ([k v] & <- & Hin). cbn [snd].
    apply In_mget in Hin; [|eapply so_impls; [exact So|exact Ex]]. eapply fi_impl; eassumption.
Qed.

(** A successful import of a kit adds exactly what is new in it. *)
Theorem C48_import_exact : forall k s s',
  consume_kit k s = (s', Ok tt) -> kit_imported k s s' /\ self_contained k s.
Proof. exact kit_success. Qed.

(** Importing does not panic if every implementation is for a schema and an interface
    which are in the kit or known.  Missing: it does panic otherwise, below. *)
Theorem C48_no_panic_partial : forall k s, self_contained k s -> snd (consume_kit k s) <> Panic.
Proof. exact kit_no_panic. Qed.

(** With room for its contents, importing any other kit panics. *)
Theorem C48_panics : forall k s,
  room_for k s ->
  (forall id si, stash_schema s id = Ok si -> len (si_impls si) + len (k_impls k) <= U8MAX) ->
  len (k_impls k) <= U8MAX ->
  ~ self_contained k s -> snd (consume_kit k s) = Panic.
Proof. exact kit_panics. Qed.

Definition ex_schema (id : N) : SchemaRec := {| sch_id := id; sch_globals := []; sch_libs := []; sch_types := [] |}.
Definition ex_iface (id name : N) : IfaceRec := {| if_id := id; if_name := name; if_inherits := []; if_types := [] |}.
Definition ex_impl (id sc i : N) : ImplRec := {| im_id := id; im_schema := sc; im_iface := i |}.
Definition ex_kit (ifaces : list IfaceRec) (schemata : list SchemaRec) (impls : list ImplRec) : Kit :=
  {| k_ifaces := ifaces; k_schemata := schemata; k_impls := impls; k_suppl := []; k_types := [(1, 11)];
     k_scripts := [(2, 22)]; k_signatures := [((TagSchema, 5), [(100, 7)])] |}.

(** It is not true that importing a kit never panics. *)
Theorem C48_no_panic_refuted : exists k, snd (consume_kit k st_empty) = Panic.
Proof. exists (ex_kit [ex_iface 3 30] [] [ex_impl 1 5 3]). vm_compute. reflexivity. Qed.

(** It is not true of implementations that they stay: one for another interface with the
    same name takes the place of the one that was stored. *)
Theorem C48_impl_kept_refuted : ~ forall H K l k id si iface im,
  stash_schema (stash_after H K st_empty l) id = Ok si -> impl_get si iface = Some im ->
  snd (consume_kit k (stash_after H K st_empty l)) = Ok tt ->
  exists si', stash_schema (fst (consume_kit k (stash_after H K st_empty l))) id = Ok si' /\ impl_get si' iface = Some im.
Proof.
  intros F.
  assert (X : exists H : Hashes, True) by (exists {| h_seal := fun _ => 0; h_state := fun _ => 0; h_op := fun _ => 0; h_bundle := fun _ _ => 0 |}; exact I).
  destruct X as [H _].
  set (K := {| mk_with := fun _ _ _ => None; mk_proof := fun _ _ _ => None |}).
  set (l := [ShKit (ex_kit [ex_iface 3 30] [ex_schema 5] [ex_impl 1 5 3])]).
  set (k := ex_kit [ex_iface 4 30] [] [ex_impl 2 5 4]).
  assert (E1 : stash_schema (stash_after H K st_empty l) 5 = Ok {| si_schema := ex_schema 5; si_impls := [(30, ex_impl 1 5 3)] |}) by (vm_compute; reflexivity).
  assert (E2 : impl_get {| si_schema := ex_schema 5; si_impls := [(30, ex_impl 1 5 3)] |} 3 = Some (ex_impl 1 5 3)) by (vm_compute; reflexivity).
  assert (E3 : snd (consume_kit k (stash_after H K st_empty l)) = Ok tt) by (vm_compute; reflexivity).
  specialize (F H K l k 5 _ 3 _ E1 E2 E3).
  destruct F as (si' & E & G). vm_compute in E. injection E as <-. vm_compute in G. discriminate.
Qed.

Example C48_nonvacuous :
  let r := consume_kit (ex_kit [ex_iface 3 30] [ex_schema 5] [ex_impl 1 5 3]) st_empty in
  let r' := consume_kit (ex_kit [ex_iface 4 31; {| if_id := 3; if_name := 99; if_inherits := []; if_types := [] |}]
                      [ex_schema 5; ex_schema 6] [ex_impl 2 6 4]) (fst r) in
  snd r = Ok tt /\ snd r' = Ok tt /\
  iface_by_id (fst r') 3 = Ok (ex_iface 3 30) /\ iface_by_name (fst r') 30 = Ok (ex_iface 3 30) /\
  iface_by_name (fst r') 99 = Err (IfaceAbsent 99) /\
  impl_under (fst r') 5 30 = Some (ex_impl 1 5 3) /\ impl_under (fst r') 6 31 = Some (ex_impl 2 6 4).
Proof. vm_compute. auto 10. Qed.

Example C48_panics_nonvacuous :
  let k := ex_kit [ex_iface 3 30] [ex_schema 6] [ex_impl 1 5 3] in
  room_for k st_empty /\ ~ self_contained k st_empty /\ self_contained (ex_kit [ex_iface 3 30] [ex_schema 5] [ex_impl 1 5 3]) st_empty.
Proof.
  split; [vm_compute; repeat split; discriminate|]. split.
  - intros Sc. destruct (Sc (ex_impl 1 5 3) (or_introl eq_refl)) as [[(sc & [<-|[]] & E)|[si E]] _]; discriminate.
  - intros im [<-|[]]. split; left; [exists (ex_schema 5)|exists (ex_iface 3 30)]; split; (left; reflexivity) || reflexivity.
Qed.

Print Assumptions C48_definitions_kept.
Print Assumptions C48_lookup.
Print Assumptions C48_import_exact.
Print Assumptions C48_no_panic_partial.
Print Assumptions C48_panics.
Print Assumptions C48_no_panic_refuted.
Print Assumptions C48_impl_kept_refuted.

(** ** C49: signatures *)

(** A call changes a stored signature only for an identity acceptable at that moment. *)
Theorem C49_only_acceptable : forall H K call s c id,
  let s' := fst (stash_call H K call s) in
  signature s' c id = signature s c id \/ should_accept (get_trust s id) = true.
Proof.
  intros H K call s c id s'.
  destruct (call_steps anything H K call s (unguarded call)) as [S|(i & l & -> & E)].
  2:{ left. unfold s'. rewrite E. reflexivity. }
  assert (P : (forall i, get_trust s' i = get_trust s i) /\
              (signature s' c id = signature s c id \/ should_accept (get_trust s id) = true)); [|apply P].
  eapply (steps_keep anything H (fun t => (forall i, get_trust t i = get_trust s i) /\
    (signature t c id = signature s c id \/ should_accept (get_trust s id) = true))); [|exact S|split; [reflexivity|left; reflexivity]].
  intros a b U [Ta Sa]. split; [intros i; rewrite (trust_kept _ _ _ _ _ U); apply Ta|].
  destruct Sa as [Sa|Sa]; [|right; exact Sa]. rewrite <- Sa. destruct U; auto.
  unfold signature at 1, sigs_for. simpl. rewrite mget_insert. destruct (keqb c c0) eqn:Kc; [|left; reflexivity].
  apply keqb_true in Kc as ->. destruct (H0 id) as [->|[Ac _]]; [left; reflexivity|right; rewrite <- Ta; exact Ac].
Qed.

(** Over a history: every stored signature was brought by a call at a moment when its
    identity was acceptable. *)
Theorem C49_history : forall H K calls c id blob,
  signature (stash_after H K st_empty calls) c id = Some blob ->
  exists before call after, calls = before ++ call :: after /\
    should_accept (get_trust (stash_after H K st_empty before) id) = true.
Proof.
  intros H K calls c id blob. induction calls as [|call calls IH] using rev_ind; [discriminate|].
  unfold stash_after in *. rewrite fold_left_app. cbn [fold_left]. intros E.
  destruct (C49_only_acceptable H K call (fold_left (fun s c => fst (stash_call H K c s)) calls st_empty) c id) as [X|X].
  - rewrite X in E. destruct (IH E) as (b & x & a & -> & Ac). exists b, x, (a ++ [call]). split; [|exact Ac].
    rewrite <- app_assoc. reflexivity.
  - exists calls, call, []. auto.
Qed.

(** Trust levels change only when the user sets one. *)
Theorem C49_levels : forall H K call s id,
  get_trust (fst (stash_call H K call s)) id =
  match call with
  | ShTrust i l => if (i =? id) && is_ok (snd (stash_call H K call s)) then l else get_trust s id
  | _ => get_trust s id
  end.
Proof.
  intros H K call s id. destruct (call_steps anything H K call s (unguarded call)) as [S|(i & l & -> & E)].
  - assert (G : get_trust (fst (stash_call H K call s)) id = get_trust s id).
    { eapply (steps_keep anything H (fun t => get_trust t id = get_trust s id)); [|exact S|reflexivity].
      intros a b U Ha. rewrite (trust_kept _ _ _ _ _ U). exact Ha. }
    destruct call; try exact G. clear S. simpl in *. unfold set_trust, bind, get, grown, lift, put in *.
    destruct (cinsert _ _ _ _) as [m|] eqn:Ec; cbn in *; [|rewrite Bool.andb_false_r; reflexivity].
    apply cinsert_inv in Ec as [-> _]. rewrite Bool.andb_true_r. unfold get_trust. simpl. rewrite mget_insert.
    destruct (N.eqb_spec id0 id) as [->|Ne]; [rewrite keqb_refl; reflexivity|]. rewrite (proj2 (keqb_neq _ _)) by congruence. reflexivity.
  - simpl in *. unfold set_trust, bind, get, grown, lift, put in *.
    destruct (cinsert _ _ _ _) as [m|] eqn:Ec; cbn in *; [|rewrite Bool.andb_false_r; reflexivity].
    apply cinsert_inv in Ec as [-> _]. rewrite Bool.andb_true_r. unfold get_trust. simpl. rewrite mget_insert.
    destruct (N.eqb_spec i id) as [->|Ne]; [rewrite keqb_refl; reflexivity|]. rewrite (proj2 (keqb_neq _ _)) by congruence. reflexivity.
Qed.

(** With room, importing a kit stores exactly the signatures of acceptable identities, and
    records the identities not seen before with the default level. *)
Theorem C49_exact : forall H K calls k s',
  let s := stash_after H K st_empty calls in
  msorted (k_signatures k) -> (forall c sigs, In (c, sigs) (k_signatures k) -> msorted sigs) ->
  sigs_room (k_signatures k) s ->
  consume_kit k s = (s', Ok tt) ->
  (forall c id, signature s' c id =
     match offered (k_signatures k) c id with
     | Some blob => if should_accept (get_trust s id) then Some blob else signature s c id
     | None => signature s c id
     end) /\
  (forall id, mget id (st_identities s') =
     match mget id (st_identities s) with
     | Some l => Some l
     | None => if existsb (fun p => mhas id (snd p)) (k_signatures k) then Some trust_default else None
     end).
Proof. intros H K calls k s' s. apply (kit_sigs H). apply sorted_after, sorted_empty. Qed.

(** Beyond the room of ten signatures per content the rest is dropped without an error:
    the import reports success. *)
Theorem C49_all_stored_refuted : ~ forall H K calls k s' c id blob,
  consume_kit k (stash_after H K st_empty calls) = (s', Ok tt) ->
  offered (k_signatures k) c id = Some blob ->
  should_accept (get_trust (stash_after H K st_empty calls) id) = true -> signature s' c id = Some blob.
Proof.
  intros F.
  pose (ten := map (fun i => (i, i)) [1;2;3;4;5;6;7;8;9;10]).
  pose (kit := fun sigs => {| k_ifaces := []; k_schemata := []; k_impls := []; k_suppl := []; k_types := []; k_scripts := [];
     k_signatures := [((TagSchema, 5), sigs)] |}).
  set (H := {| h_seal := fun _ => 0; h_state := fun _ => 0; h_op := fun _ => 0; h_bundle := fun _ _ => 0 |}).
  set (K := {| mk_with := fun _ _ _ => None; mk_proof := fun _ _ _ => None |}).
  set (r := consume_kit (kit [(11, 11)]) (stash_after H K st_empty [ShKit (kit ten)])).
  assert (E1 : r = (fst r, Ok tt)) by (vm_compute; reflexivity).
  assert (E2 : signature (fst r) (TagSchema, 5) 11 = None) by (vm_compute; reflexivity).
  assert (E3 : offered (k_signatures (kit [(11, 11)])) (TagSchema, 5) 11 = Some 11) by (vm_compute; reflexivity).
  assert (E4 : should_accept (get_trust (stash_after H K st_empty [ShKit (kit ten)]) 11) = true) by (vm_compute; reflexivity).
  rewrite (F H K [ShKit (kit ten)] (kit [(11, 11)]) (fst r) (TagSchema, 5) 11 11 E1 E3 E4) in E2. discriminate.
Qed.

Definition ex_sigs_kit : Kit :=
  {| k_ifaces := []; k_schemata := []; k_impls := []; k_suppl := []; k_types := []; k_scripts := [];
     k_signatures := [((TagSchema, 5), [(100, 7); (101, 8); (102, 9)])] |}.
Example C49_nonvacuous : forall H K,
  let s := stash_after H K st_empty [ShTrust 101 Malicious; ShTrust 102 Trusted] in
  sigs_room (k_signatures ex_sigs_kit) s /\
  let r := consume_kit ex_sigs_kit s in
  let s' := fst r in
    snd r = Ok tt /\ signature s' (TagSchema, 5) 100 = Some 7 /\ signature s' (TagSchema, 5) 101 = None /\
    signature s' (TagSchema, 5) 102 = Some 9 /\ mget 100 (st_identities s') = Some trust_default.
Proof.
  intros H K s. split.
  - vm_compute. repeat split; try discriminate. intros c sigs [E|[]]. injection E as <- <-. discriminate.
  - vm_compute. auto.
Qed.

Print Assumptions C49_only_acceptable.
Print Assumptions C49_history.
Print Assumptions C49_levels.
Print Assumptions C49_exact.
Print Assumptions C49_all_stored_refuted.

(** ** C50: secret seals *)

(** A stored seal is found by its hash forever after. *)
Theorem C50_remembered : forall H K x s s' b calls,
  (forall y, binds (h_seal H) x y) ->
  store_secret_seal x s = (s', Ok b) ->
  seal_secret H (stash_after H K s' calls) (h_seal H x) = Some x.
Proof.
  intros H K x s s' b calls Bi E.
  assert (Hin : In x (st_seals s')).
  { unfold store_secret_seal, add_secret_seal, bind, get, grown, lift, put, ret in E.
    destruct (cpush _ _ _) as [l|] eqn:Ec; cbn in E; [|discriminate].
    apply cpush_inv in Ec as [-> _]. injection E as <- _. simpl. apply In_sinsert. left; reflexivity. }
  assert (Ha : In x (st_seals (stash_after H K s' calls))).
  { apply (calls_keep anything H K (fun t => In x (st_seals t))); [intros a c; apply seal_kept|intros; assumption|intros; apply unguarded|exact Hin]. }
  unfold seal_secret. destruct (find _ _) as [y|] eqn:Ef.
  - apply find_some in Ef as [_ Ey]. apply N.eqb_eq in Ey. f_equal. symmetry. apply Bi. congruence.
  - eapply find_none in Ef; [|exact Ha]. cbn in Ef. rewrite N.eqb_refl in Ef. discriminate.
Qed.

(** Nothing else is found: a hash resolves only to a stored seal with this hash, and only
    storing a seal adds one. *)
Theorem C50_only_stored : forall H K calls secret x,
  seal_secret H (stash_after H K st_empty calls) secret = Some x ->
  h_seal H x = secret /\ In (ShSeal x) calls.
Proof.
  intros H K calls secret x E. unfold seal_secret in E. apply find_some in E as [Hin Ey]. apply N.eqb_eq in Ey.
  split; [exact Ey|]. revert Hin. clear Ey. induction calls as [|call calls IH] using rev_ind; [intros []|].
  unfold stash_after in *. rewrite fold_left_app. cbn [fold_left]. set (s := fold_left _ calls st_empty) in *. intros Hin.
  apply in_or_app.
  assert (G : (exists y, call = ShSeal y /\ (x = y \/ In x (st_seals s))) \/ In x (st_seals s)).
  { destruct call as [c|k|w|b|y|id l]; cbn [stash_call] in Hin.
    5:{ left. exists y. split; [reflexivity|]. unfold bind, store_secret_seal, add_secret_seal, bind, get, grown, lift, put, ret in Hin.
        destruct (cpush _ _ _) as [l|] eqn:Ec; cbn in Hin; [|right; exact Hin].
        apply cpush_inv in Ec as [-> _]. simpl in Hin. apply In_sinsert in Hin as [->|Hin]; auto. }
    5:{ right. unfold set_trust, bind, get, grown, lift, put in Hin. destruct (cinsert _ _ _ _); exact Hin. }
    all: right.
    - rewrite (same_seals_consignment H K c s) in Hin. exact Hin.
    - rewrite (same_seals_kit k s) in Hin. exact Hin.
    - rewrite (same_seals_bind (consume_witness w) (fun _ => ret tt)) in Hin; [exact Hin|apply same_seals_witness|intros; reflexivity].
    - rewrite (same_seals_bind (consume_bundle H b) (fun _ => ret tt)) in Hin; [exact Hin|apply same_seals_bundle|intros; reflexivity]. }
  destruct G as [(y & -> & [-> |Hs])|Hs]; [right; left; reflexivity|left; apply IH, Hs|left; apply IH, Hs].
Qed.

(** A received consignment gets the stored seal revealed in the bundle it is listed for. *)
Theorem C50_resolved : forall H K x s s' b calls c r,
  collision_free H -> msorted (c_terminals c) ->
  (forall wb, In wb (c_bundles c) -> methods_ok (wb_bundles wb)) ->
  store_secret_seal x s = (s', Ok b) ->
  resolve_secrets H (stash_after H K s' calls) c = Ok r ->
  r = set_bundles c (c_bundles r) /\
  Forall2 (witness_rel (fun t t' => mget (bundle_id H t) (c_terminals c) = Some (h_seal H x) ->
                                    t' = reveal_bundle H x t)) (c_bundles c) (c_bundles r).
Proof.
  intros H K x s s' b calls c r HC Mt Mo E R.
  assert (G : seal_secret H (stash_after H K s' calls) (h_seal H x) = Some x).
  { eapply C50_remembered; [|exact E]. intros y. apply HC. }
  destruct (reveal_terminal_seals_ok H _ c r HC Mt Mo R) as [Er F]. split; [exact Er|].
  clear R Er Mo. induction F as [|w w' ws ws' [W1 W2] F IH]; [constructor|]. constructor; [clear IH F|exact IH]. split; [exact W1|].
  assert (Ct : forall t t', terminal_revealed H (fun secret => Ok (seal_secret H (stash_after H K s' calls) secret) : result StashError _) (c_terminals c) t t' ->
             mget (bundle_id H t) (c_terminals c) = Some (h_seal H x) -> t' = reveal_bundle H x t).
  { intros t t'. unfold terminal_revealed. intros T Em. rewrite Em, G in T. exact T. }
  destruct (wb_bundles w), (wb_bundles w'); try exact W2; cbn [anchored_rel] in *; unfold client_rel in *.
  - destruct W2 as (A & B & C). auto.
  - destruct W2 as (A & B & C). auto.
  - destruct W2 as ((A & B & C) & (A' & B' & C')). auto 10.
Qed.

(** Resolving never fails. *)
Theorem C50_resolve_total : forall H s c, exists r, resolve_secrets H s c = Ok r.
Proof. intros H s c. apply reveal_terminal_seals_total. intros. eexists. reflexivity. Qed.

(** Storing succeeds while there is room; in a full set it panics, even for a seal which
    is already stored. *)
Theorem C50_store : forall x s,
  store_secret_seal x s =
  if len (st_seals s) <? U24MAX then (with_seals (sinsert x (st_seals s)) s, Ok (negb (smem x (st_seals s))))
  else (s, Panic).
Proof.
  intros x s. unfold store_secret_seal, add_secret_seal, bind, get, grown, lift, put, ret, cpush.
  match goal with |- context [if ?c then _ else _] => destruct c end; reflexivity.
Qed.

Definition ex_secret : Seal := {| s_layer := Bitcoin; s_method := TapretFirst; s_txid := None; s_vout := 1; s_blinding := 9 |}.
Example C50_nonvacuous : exists H s', collision_free H /\ store_secret_seal ex_secret st_empty = (s', Ok true) /\
  st_seals s' = [ex_secret] /\
  exists s2, store_secret_seal ex_secret s' = (s2, Ok false) /\ s2 = s'.
Proof.
  destruct (ex_intro _ ideal_hashes ideal_collision_free : exists H, collision_free H) as [H HC].
  exists H, (with_seals [ex_secret] st_empty). split; [exact HC|].
  split; [vm_compute; reflexivity|]. split; [reflexivity|]. exists (with_seals [ex_secret] st_empty). split; [vm_compute|]; reflexivity.
Qed.

Print Assumptions C50_remembered.
Print Assumptions C50_only_stored.
Print Assumptions C50_resolved.
Print Assumptions C50_resolve_total.
Print Assumptions C50_store.

(** ** C26: the same consignment again (stash part) *)

(** Importing a consignment a second time either changes nothing that can be looked up,
    or fails because some collection is full. *)
Theorem C26_stash_again_partial : forall H K calls c s1,
  let s := stash_after H K st_empty calls in
  collision_free H -> (forall d, In d (ShConsignment c :: calls) -> call_ok H d) ->
  sigs_room (c_signatures c) s -> sigs_room (c_signatures c) s1 ->
  consume_consignment H K c s = (s1, Ok tt) ->
  exists s2 r, consume_consignment H K c s1 = (s2, r) /\ (r = Err StashFull \/ r = Ok tt /\ same_view s1 s2).
Proof.
  intros H K calls c s1 s HC Hok R0 R1 E. eapply consignment_again; [exact HC| |apply sorted_after, sorted_empty|exact (Hok _ (or_introl eq_refl))|exact R0|exact R1|exact E].
  apply good_after; [exact HC|]. intros d Hd. apply Hok. right; exact Hd.
Qed.

Print Assumptions C26_stash_again_partial.

Definition ex_op (k : OpKind) (n : N) (a : list Assign) : Operation :=
  {| op_kind := k; op_head := 0; op_contract := 1; op_ty := n; op_nonce := 0; op_meta := [];
     op_globals := []; op_inputs := []; op_redeemed := [];
     op_assigns := [(4, {| ta_kind := KDeclarative; ta_list := a |})]; op_valencies := [] |}.
(** A consignment of a contract with one transition, assigned to the secret seal [x] *)
Definition ex_cons (H : Hashes) (x : Seal) : Consignment :=
  let t := ex_op OpTransition 2 [ConfidentialSeal (h_seal H x) RVoid] in
  let b := {| b_method := TapretFirst; b_inputs := [(0, op_id H t)]; b_known := [(op_id H t, t)] |} in
  {| c_transfer := true; c_terminals := [(bundle_id H b, h_seal H x)]; c_genesis := ex_op OpGenesis 0 [Confidential 3 4];
     c_extensions := []; c_schema := ex_schema 5; c_ifaces := [(ex_iface 3 30, ex_impl 1 5 3)]; c_supplements := [];
     c_bundles := [{| wb_witness := {| xw_layer := Bitcoin; xw_pub := PwTxid 8 |};
                      wb_bundles := ABTapret {| cb_mpc := 0; cb_dbc := {| dp_method := TapretFirst; dp_data := 0 |}; cb_bundle := b |} |}];
     c_types := [(1, 11)]; c_scripts := []; c_attachments := [(7, 70)];
     c_signatures := [((TagSchema, 5), [(100, 7)])] |}.
Definition ex_merkle : Merkle := {| mk_with := fun _ _ m => Some m; mk_proof := fun _ _ _ => None |}.

Example C26_stash_again_nonvacuous : forall H, collision_free H ->
  let c := ex_cons H ex_secret in
  let r := consume_consignment H ex_merkle c st_empty in
  call_ok H (ShConsignment c) /\ snd r = Ok tt /\
  sigs_room (c_signatures c) st_empty /\ sigs_room (c_signatures c) (fst r) /\
  len (st_bundles (fst r)) = 1 /\ len (st_witnesses (fst r)) = 1 /\ len (st_geneses (fst r)) = 1.
Proof.
  intros H HC c r.
  assert (So : forall (k : N) (o : TypedAssigns), msorted [(k, o)]) by (intros; repeat constructor).
  split.
  { constructor.
    - apply So.
    - intros e [].
    - intros wb p [<-|[]] [<-|[]]. cbn [snd di_first di_single wb_bundles cb_bundle]. split; [|vm_compute; discriminate]. split; [|split; [repeat constructor|]].
      + intros k t E. cbn [b_known mget] in E. destruct (keqb k _) eqn:Kk; [|discriminate]. apply Some_inj in E as <-. apply keqb_true in Kk as ->. reflexivity.
      + intros k t E. cbn [b_known mget] in E. destruct (keqb k _) eqn:Kk; [|discriminate]. apply Some_inj in E as <-. apply So.
    - repeat constructor. intros [].
    - repeat constructor.
    - intros x sigs [E|[]]. injection E as <- <-. repeat constructor. }
  assert (Er : r = (fst r, Ok tt)) by (vm_compute; reflexivity).
  split; [rewrite Er; reflexivity|].
  split; [vm_compute; repeat split; try discriminate; intros x sigs [E|[]]; injection E as <- <-; discriminate|].
  split; [vm_compute; repeat split; try discriminate; intros x sigs [E|[]]; injection E as <- <-; discriminate|].
  vm_compute. auto.
Qed.

Example C50_resolved_nonvacuous : forall H, collision_free H ->
  let c := ex_cons H ex_secret in
  let s := with_seals [ex_secret] st_empty in
  msorted (c_terminals c) /\ (forall wb, In wb (c_bundles c) -> methods_ok (wb_bundles wb)) /\
  store_secret_seal ex_secret st_empty = (s, Ok true) /\
  exists wb t, In wb (c_bundles c) /\ wb_bundles wb = ABTapret t /\
    mget (bundle_id H (cb_bundle t)) (c_terminals c) = Some (h_seal H ex_secret).
Proof.
  intros H HC c s. split; [repeat constructor|]. split; [intros wb [<-|[]]; reflexivity|].
  split; [vm_compute; reflexivity|]. do 2 eexists. split; [left; reflexivity|]. split; [reflexivity|].
  cbn [cb_bundle c_terminals c ex_cons mget]. rewrite keqb_refl. reflexivity.
Qed.
