(** * Ids of containers and validation: property theorems C64, C65 *)
From Coq Require Import Sorting.Sorted.
From Verif Require Import Base StM Core Ser MergeModel MergeSpec MergeProofs ContainerModel ContainerSpec ContainerProofs.
From Verif Require Import PIndexModel PIndexSpec PIndexProofs StateModel StateSpec StateProofs StashModel StashSpec StashProofs StashAgain StashProps.
From Verif Require Import StockModel StockProofs StockAgain StockCodec ConsignModel ConsignSpec ConsignProofs ConsignAccept ConsignProps FasciaProps StockProps StateProps.
From Verif Require Import IdentModel IdentSpec IdentProofs.
Local Open Scope N_scope.

(** ** C64: ids *)

(** Two consignments have one id exactly if they agree in everything the id commits to. *)
Theorem C64_consignment_id : forall H D c c', collision_free H -> digests_bind D ->
  (consignment_id H D c = consignment_id H D c' <-> cons_alike c c').
Proof.
  intros H D c c' HC HD. rewrite <- (cons_parts_same H D c c' HC HD). unfold consignment_id. split; [|intros ->; reflexivity].
  intros E. destruct HD as (_ & _ & _ & _ & Dc & _). apply Dc, E.
Qed.

(** So they are the same consignment, if their schemata are those of their geneses, and their
    implementations those of the interfaces they are listed for.
    Missing: this is not committed to, see below. *)
Theorem C64_consignment_partial : forall H D c c', collision_free H -> digests_bind D ->
  cons_ordered H c -> cons_ordered H c' -> schema_fits c -> schema_fits c' -> ifaces_fit c -> ifaces_fit c' ->
  ids_bind sch_id [c_schema c] [c_schema c'] ->
  ids_bind if_id (map fst (c_ifaces c)) (map fst (c_ifaces c')) -> ids_bind im_id (map snd (c_ifaces c)) (map snd (c_ifaces c')) ->
  ids_bind fst (c_scripts c) (c_scripts c') -> ids_bind fst (c_attachments c) (c_attachments c') ->
  (consignment_id H D c = consignment_id H D c' <-> c = c').
Proof.
  intros H D c c' HC HD O1 O2 S1 S2 I1 I2 B1 B2 B3 B4 B5. split; [|intros ->; reflexivity].
  intros E. apply (C64_consignment_id H D c c' HC HD) in E. apply (cons_alike_eq H); assumption.
Qed.

(** The schema, the interfaces and the attached files can be replaced without a change of id. *)
Definition with_schema (c : Consignment) (x : SchemaRec) (i : list (IfaceRec * ImplRec)) (a : omap N N) : Consignment :=
  {| c_transfer := c_transfer c; c_terminals := c_terminals c; c_genesis := c_genesis c;
     c_extensions := c_extensions c; c_bundles := c_bundles c; c_schema := x;
     c_ifaces := i; c_supplements := c_supplements c; c_types := c_types c;
     c_scripts := c_scripts c; c_attachments := a; c_signatures := c_signatures c |}.
Theorem C64_not_committed : forall H D c x ifaces a, map snd ifaces = map snd (c_ifaces c) -> mkeys a = mkeys (c_attachments c) ->
  consignment_id H D (with_schema c x ifaces a) = consignment_id H D c.
Proof.
  intros H D c x ifaces a Ei Ea. apply (f_equal (map im_id)) in Ei. rewrite !map_map in Ei. unfold consignment_id, cons_parts.
  cbn [with_schema c_ifaces c_transfer c_genesis c_bundles c_extensions c_terminals c_attachments c_supplements c_types c_scripts c_signatures].
  rewrite Ei, Ea. reflexivity.
Qed.

(** Revealing a seal in a terminal changes the id if it shows anything, and so does turning a
    transfer into a contract. *)
Theorem C64_revealed : forall E H D (f : N -> result E (option Seal)) c r, collision_free H -> digests_bind D ->
  ordered_by wb_id (c_bundles c) -> msorted (c_terminals c) -> (forall wb, In wb (c_bundles c) -> methods_ok (wb_bundles wb)) ->
  reveal_terminal_seals H f c = Ok r -> (consignment_id H D r = consignment_id H D c <-> r = c).
Proof.
  intros E H D f c r HC HD Ob St Mo Er. split; [|intros ->; reflexivity]. intros Ei.
  apply (C64_consignment_id H D r c HC HD) in Ei. apply ca_bundles in Ei.
  destruct (reveal_terminal_seals_ok H f c r HC St Mo Er) as [Eq F].
  assert (Or : ordered_by wb_id (c_bundles r)).
  { assert (Em : map wb_id (c_bundles r) = map wb_id (c_bundles c)).
    { clear -F. induction F as [|x y l l' R F IH]; [reflexivity|]. cbn [map]. rewrite IH. f_equal. unfold wb_id. destruct R as [R _]. rewrite R. reflexivity. }
    unfold ordered_by in *. clear -Ob Em. revert Ob Em. generalize (c_bundles r) (c_bundles c). intros l l' Ob. revert l.
    induction Ob as [|y l' Ob IH Fy]; intros [|x l] Em; try discriminate Em; [constructor|]. cbn [map] in Em. apply cons_inj in Em as [E1 E2].
    constructor; [apply IH, E2|]. rewrite E1. apply Forall_forall. intros z Hz. apply (in_map wb_id) in Hz. rewrite E2 in Hz.
    apply in_map_iff in Hz as (z' & <- & Hz'). rewrite Forall_forall in Fy. apply Fy, Hz'. }
  rewrite Eq. rewrite (ordered_ext _ _ _ Or Ob Ei). destruct c; reflexivity.
Qed.
Theorem C64_into_contract : forall H D c, digests_bind D -> collision_free H ->
  (consignment_id H D (into_contract c) = consignment_id H D c <-> c_transfer c = false).
Proof.
  intros H D c HD HC. rewrite (C64_consignment_id H D _ _ HC HD). split.
  - intros A. symmetry. exact (ca_transfer _ _ A).
  - intros E. replace (into_contract c) with c; [constructor; try reflexivity; apply same_refl|]. destruct c; cbn in *. subst. reflexivity.
Qed.

(** Two kits have one id exactly if they are the same. *)
Theorem C64_kit_id : forall D k k', digests_bind D -> (kit_id D k = kit_id D k' <-> kit_alike k k').
Proof.
  intros D k k' HD. rewrite <- (kit_parts_same D k k' HD). unfold kit_id. split; [|intros ->; reflexivity].
  intros E. destruct HD as (_ & _ & _ & _ & _ & Dk). apply Dk, E.
Qed.
Theorem C64_kit : forall D k k', digests_bind D -> kit_ordered k -> kit_ordered k' ->
  ids_bind if_id (k_ifaces k) (k_ifaces k') -> ids_bind sch_id (k_schemata k) (k_schemata k') ->
  ids_bind im_id (k_impls k) (k_impls k') -> ids_bind fst (k_scripts k) (k_scripts k') ->
  (kit_id D k = kit_id D k' <-> k = k').
Proof.
  intros D k k' HD O1 O2 B1 B2 B3 B4. split; [|intros ->; reflexivity].
  intros E. apply (C64_kit_id D k k' HD) in E. apply kit_alike_eq; assumption.
Qed.

(** Commitments which bind, and consignments and kits which meet the conditions *)
#[export] Instance SerBool : Ser bool.
Proof. via (fun b : bool => if b then 1 else 0) (fun n => match n with 0 => Some false | _ => Some true end). Defined.
#[export] Instance SerDbc : Ser DbcProof.
Proof.
  via (fun a : DbcProof => (dp_method a, dp_data a)) (fun t : CloseMethod * N => Some {| dp_method := fst t; dp_data := snd t |}).
Defined.
#[export] Instance SerClient : Ser ClientBundle.
Proof.
  via (fun a : ClientBundle => (cb_mpc a, (cb_dbc a, cb_bundle a)))
      (fun t : N * (DbcProof * Bundle) => let '(a, (b, c)) := t in Some {| cb_mpc := a; cb_dbc := b; cb_bundle := c |}).
Defined.
#[export] Instance SerAnchored : Ser AnchoredBundles.
Proof.
  via (fun a : AnchoredBundles => match a with
         | ABTapret t => (Some t, None) | ABOpret o => (None, Some o) | ABDouble t o => (Some t, Some o) end)
      (fun t : option ClientBundle * option ClientBundle => match t with
         | (Some t, None) => Some (ABTapret t) | (None, Some o) => Some (ABOpret o)
         | (Some t, Some o) => Some (ABDouble t o) | _ => None end).
Defined.
#[export] Instance SerWitnessBundle : Ser WitnessBundle.
Proof.
  via (fun a : WitnessBundle => (wb_witness a, wb_bundles a))
      (fun t : XPubWitness * AnchoredBundles => Some {| wb_witness := fst t; wb_bundles := snd t |}).
Defined.
#[export] Instance SerConsParts : Ser ConsParts.
Proof.
  via (fun a : ConsParts => (cp_transfer a, (cp_contract a, (cp_genesis a, (cp_impls a, (cp_bundles a, (cp_extensions a,
         (cp_terminals a, (cp_attachments a, (cp_suppl a, (cp_types a, (cp_scripts a, cp_signatures a))))))))))))
      (fun t : bool * (N * (N * (oset N * (oset N * (oset N * (omap N N * (oset N * (oset N * (N * (oset N * omap ContentId (omap N N))))))))))) =>
         let '(a, (b, (c, (d, (e, (f, (g, (h, (i, (j, (k, l))))))))))) := t in
         Some {| cp_transfer := a; cp_contract := b; cp_genesis := c; cp_impls := d; cp_bundles := e; cp_extensions := f;
                 cp_terminals := g; cp_attachments := h; cp_suppl := i; cp_types := j; cp_scripts := k; cp_signatures := l |}).
Defined.
#[export] Instance SerKitParts : Ser KitParts.
Proof.
  via (fun a : KitParts => (kp_ifaces a, (kp_schemata a, (kp_impls a, (kp_suppl a, (kp_types a, (kp_scripts a, kp_signatures a)))))))
      (fun t : oset N * (oset N * (oset N * (oset N * (N * (oset N * omap ContentId (omap N N)))))) =>
         let '(a, (b, (c, (d, (e, (f, g)))))) := t in
         Some {| kp_ifaces := a; kp_schemata := b; kp_impls := c; kp_suppl := d; kp_types := e; kp_scripts := f; kp_signatures := g |}).
Defined.
#[export] Instance SerDisclosure : Ser Disclosure := SerProd.
Definition bit_digests : Digests :=
  {| d_disclose := bit_hash; d_bundle := bit_hash; d_suppl := bit_hash; d_types := bit_hash; d_cons := bit_hash; d_kit := bit_hash |}.
Lemma bit_digests_bind : digests_bind bit_digests.
Proof.
  do 5 (split; [intros a b E; apply (bit_hash_inj a b E)|]). intros a b E; apply (bit_hash_inj a b E).
Qed.
Theorem C64_identifies_refuted : ~ forall H D c c', collision_free H -> digests_bind D ->
  consignment_id H D c = consignment_id H D c' -> c_schema c = c_schema c' \/ c_ifaces c = c_ifaces c' \/ c_attachments c = c_attachments c'.
Proof.
  intros Bad. set (c := with_schema (cn_cons bit_hashes [cn_other] cn_a) (c_schema (cn_cons bit_hashes [cn_other] cn_a)) [(ex_iface 3 30, ex_impl 1 5 3)] [(9, 1)]).
  destruct (Bad bit_hashes bit_digests c (with_schema c {| sch_id := 6; sch_globals := []; sch_libs := []; sch_types := [] |} [(ex_iface 4 40, ex_impl 1 5 3)] [(9, 2)])
    bit_collision_free bit_digests_bind) as [X|[X|X]]; [|discriminate X|discriminate X|discriminate X].
  symmetry. apply C64_not_committed; reflexivity.
Qed.

Lemma sort_two {A} (R : A -> A -> Prop) x y : R x y -> StronglySorted R [x; y].
Proof. intros Rxy. constructor; [constructor; [constructor|constructor]|]. constructor; [exact Rxy|constructor]. Qed.
Lemma sort_one {A} (R : A -> A -> Prop) x : StronglySorted R [x].
Proof. constructor; constructor. Qed.
Example C64_nonvacuous : let c := cn_cons bit_hashes [cn_other] cn_a in
  cons_ordered bit_hashes c /\ schema_fits c /\ ifaces_fit c /\ msorted (c_terminals c) /\
  (forall wb, In wb (c_bundles c) -> methods_ok (wb_bundles wb)) /\
  consignment_id bit_hashes bit_digests c <> consignment_id bit_hashes bit_digests (cn_cons bit_hashes [] cn_a) /\
  kit_ordered {| k_ifaces := [ex_iface 3 30; ex_iface 4 30]; k_schemata := [c_schema c]; k_impls := [ex_impl 1 5 3]; k_suppl := [];
                 k_types := [(1, 11)]; k_scripts := [(6, 66)]; k_signatures := [] |}.
Proof.
  cbv zeta. split; [constructor; try apply sort_one; try apply SSorted_nil; apply sort_two; reflexivity|]. split; [reflexivity|].
  split; [intros i im [E|[]]; injection E as <- <-; reflexivity|]. split; [constructor|].
  split. { intros wb [<-|[<-|[]]]; reflexivity. }
  split.
  - intros E. apply (C64_consignment_id bit_hashes bit_digests) in E; [|exact bit_collision_free|exact bit_digests_bind].
    apply ca_bundles in E. specialize (E (cn_wb 8 (cn_bundle bit_hashes [cn_first bit_hashes; cn_other]))).
    destruct (proj1 E (or_introl eq_refl)) as [X|[X|[]]]; vm_compute in X; discriminate X.
  - constructor; try apply sort_one; try apply SSorted_nil; apply sort_two; reflexivity.
Qed.

(** ** C65: validation *)

(** A consignment is found valid exactly if the validator finds so.  It is given back as it
    was, with the validator's failures and warnings, and one more warning for a wrong kind of
    consignment, for each implementation listed for another interface than its own, and for
    each terminal in a bundle which is not there. *)
Theorem C65_verdict : forall H valid core want c,
  is_ok (validate H valid core want c) = valid core /\ validate H valid core want c <> Panic /\
  forall st c', validate H valid core want c = Ok (st, c') \/ validate H valid core want c = Err (st, c') ->
    c' = c /\ vs_failures st = vs_failures core /\
    exists ws, vs_warnings st = vs_warnings core ++ ws /\
      (In WrongType ws <-> c_transfer c <> want) /\
      (forall impl target expected, In (WrongIface impl target expected) ws <->
         target <> expected /\ exists i im, In (i, im) (c_ifaces c) /\ im_id im = impl /\ im_iface im = target /\ if_id i = expected) /\
      (forall bid, In (AbsentTerminal bid) ws <->
         In bid (mkeys (c_terminals c)) /\ forall w a b, holds c w a b -> bundle_id H b <> bid) /\
      (forall x, ~ In (CoreWarning x) ws) /\
      (msorted (c_terminals c) -> ordered_by (fun p => if_id (fst p)) (c_ifaces c) -> NoDup ws).
Proof.
  intros H valid core want c. rewrite validate_eq. cbv zeta. 
  set (w1 := if Bool.eqb (c_transfer c) want then [] else [WrongType]).
  match goal with |- context [map ?f (filter ?g (c_ifaces c))] => set (w2 := map f (filter g (c_ifaces c))) end.
  match goal with |- context [map AbsentTerminal ?l] => set (w3 := map AbsentTerminal l) end.
  split; [destruct (valid core); reflexivity|]. split; [destruct (valid core); discriminate|].
  intros st c' E. assert (X : st = {| vs_failures := vs_failures core; vs_warnings := vs_warnings core ++ w1 ++ w2 ++ w3 |} /\ c' = c).
  { destruct (valid core), E as [E|E]; try discriminate E; injection E as <- <-; auto. }
  destruct X as [-> ->]. split; [reflexivity|]. split; [reflexivity|]. exists (w1 ++ w2 ++ w3). split; [reflexivity|].
  assert (I1 : forall w, In w w1 <-> w = WrongType /\ c_transfer c <> want).
  { intros w. subst w1. destruct (Bool.eqb (c_transfer c) want) eqn:Eb.
    - apply Bool.eqb_prop in Eb. split; [intros []|intros [_ X]; destruct (X Eb)].
    - apply Bool.eqb_false_iff in Eb. split; [intros [<-|[]]; auto|intros [-> _]; left; reflexivity]. }
  assert (I2 : forall w, In w w2 <-> exists i im, In (i, im) (c_ifaces c) /\ im_iface im <> if_id i /\ w = WrongIface (im_id im) (im_iface im) (if_id i)).
  { intros w. subst w2. rewrite in_map_iff. split.
    - intros ([i im] & <- & Hin). apply filter_In in Hin as [Hin Hn]. cbn [fst snd] in *. apply Bool.negb_true_iff, N.eqb_neq in Hn.
      exists i, im. auto.
    - intros (i & im & Hin & Hn & ->). exists (i, im). split; [reflexivity|]. apply filter_In. split; [exact Hin|].
      apply Bool.negb_true_iff, N.eqb_neq. cbn [fst snd]. congruence. }
  assert (I3 : forall w, In w w3 <-> exists bid, In bid (mkeys (c_terminals c)) /\ (forall w a b, holds c w a b -> bundle_id H b <> bid) /\ w = AbsentTerminal bid).
  { intros w. subst w3. rewrite in_map_iff. split.
    - intros (bid & <- & Hin). apply filter_In in Hin as [Hin Hn]. exists bid. split; [exact Hin|]. split; [|reflexivity].
      intros w a b Hh Eb. apply Bool.negb_true_iff in Hn. assert (T : existsb (N.eqb bid) (index_bundle_ids H c) = true); [|congruence].
      apply existsb_exists. exists bid. split; [|apply N.eqb_refl]. apply index_bundle_ids_spec. eauto.
    - intros (bid & Hin & Hn & ->). exists bid. split; [reflexivity|]. apply filter_In. split; [exact Hin|]. apply Bool.negb_true_iff.
      destruct (existsb _ _) eqn:Ex; [|reflexivity]. apply existsb_exists in Ex as (x & Hx & Ex). apply N.eqb_eq in Ex. subst x.
      apply index_bundle_ids_spec in Hx as (w & a & b & Hh & Eb). destruct (Hn w a b Hh Eb). }
  split; [|split; [|split; [|split]]].
  - rewrite !in_app_iff, I1, I2, I3. split; [|auto]. intros [[_ X]|[(i & im & _ & _ & X)|(bid & _ & _ & X)]]; [exact X|discriminate X|discriminate X].
  - intros impl target expected. rewrite !in_app_iff, I1, I2, I3. split.
    + intros [[X _]|[(i & im & Hin & Hn & X)|(bid & _ & _ & X)]]; [discriminate X| |discriminate X]. injection X as -> -> ->.
      split; [exact Hn|]. exists i, im. auto.
    + intros (Hn & i & im & Hin & <- & <- & <-). right. left. exists i, im. auto.
  - intros bid. rewrite !in_app_iff, I1, I2, I3. split.
    + intros [[X _]|[(i & im & _ & _ & X)|(b & Hb & Hn & X)]]; [discriminate X|discriminate X|]. injection X as ->. auto.
    + intros [Hb Hn]. right. right. exists bid. auto.
  - intros x. rewrite !in_app_iff, I1, I2, I3. intros [[X _]|[(i & im & _ & _ & X)|(b & _ & _ & X)]]; discriminate X.
  - intros St Oi. assert (N1 : NoDup w1). { subst w1. destruct (Bool.eqb _ _); repeat constructor. intros []. }
    assert (N2 : NoDup w2).
    { assert (Nd : NoDup (map (fun p : IfaceRec * ImplRec => if_id (fst p)) (c_ifaces c))).
      { apply (@ssorted_NoDup N _). unfold ordered_by in Oi. clear -Oi. induction Oi as [|p l S IH F]; cbn [map]; [constructor|].
        constructor; [exact IH|]. apply Forall_forall. intros x Hx. apply in_map_iff in Hx as (q & <- & Hq). rewrite Forall_forall in F. apply F, Hq. }
      subst w2. clear -Nd. induction (c_ifaces c) as [|p l IH]; cbn [map filter] in *; [constructor|]. apply NoDup_cons_iff in Nd as [Hn Nd].
      destruct (negb _); [|apply IH, Nd]. cbn [map]. constructor; [|apply IH, Nd]. intros Hin. apply in_map_iff in Hin as (q & Eq & Hq).
      apply filter_In in Hq as [Hq _]. injection Eq as _ _ Eq. apply Hn. rewrite <- Eq. apply (in_map (fun p : IfaceRec * ImplRec => if_id (fst p)) _ _ Hq). }
    assert (N3 : NoDup w3).
    { subst w3. apply msorted_NoDup in St. clear -St. induction (mkeys (c_terminals c)) as [|x l IH]; cbn [filter map]; [constructor|].
      apply NoDup_cons_iff in St as [Hn Nd]. destruct (negb _); [|apply IH, Nd]. cbn [map]. constructor; [|apply IH, Nd].
      intros Hin. apply in_map_iff in Hin as (q & Eq & Hq). injection Eq as ->. apply filter_In in Hq as [Hq _]. destruct (Hn Hq). }
    assert (App : forall l l' : list Warning, NoDup l -> NoDup l' -> (forall x, In x l -> In x l' -> False) -> NoDup (l ++ l')).
    { clear. induction l as [|x l IH]; intros l' N1 N2 D; [exact N2|]. apply NoDup_cons_iff in N1 as [Hn N1]. cbn [app]. constructor.
      - rewrite in_app_iff. intros [X|X]; [exact (Hn X)|]. apply (D x); [left; reflexivity|exact X].
      - apply IH; [exact N1|exact N2|]. intros y Hy. apply D. right. exact Hy. }
    apply App; [exact N1|apply App; [exact N2|exact N3|]|].
    + intros x Hx Hy. apply I2 in Hx as (i & im & _ & _ & ->). apply I3 in Hy as (bid & _ & _ & Y). discriminate Y.
    + intros x Hx Hy. apply I1 in Hx as [-> _]. rewrite in_app_iff, I2, I3 in Hy. destruct Hy as [(i & im & _ & _ & Y)|(bid & _ & _ & Y)]; discriminate Y.
Qed.

(** So validity does not mean that these three are in order. *)
Theorem C65_checked_refuted : forall valid core, valid core = true ->
  ~ forall H want c st, validate H valid core want c = Ok (st, c) ->
    c_transfer c = want \/ ifaces_fit c \/ (forall bid, In bid (mkeys (c_terminals c)) -> exists w a b, holds c w a b /\ bundle_id H b = bid).
Proof.
  intros valid core V Bad.
  set (c := {| c_transfer := true; c_terminals := [(1, 2)]; c_genesis := cn_genesis; c_extensions := []; c_bundles := [];
     c_schema := {| sch_id := 5; sch_globals := []; sch_libs := []; sch_types := [] |}; c_ifaces := [(ex_iface 4 30, ex_impl 1 5 3)];
     c_supplements := []; c_types := []; c_scripts := []; c_attachments := []; c_signatures := [] |}).
  destruct (C65_verdict bit_hashes valid core false c) as (E1 & _ & _). rewrite V in E1.
  destruct (validate bit_hashes valid core false c) as [[st c']|e|] eqn:E; try discriminate E1.
  assert (c' = c). { destruct (C65_verdict bit_hashes valid core false c) as (_ & _ & X). apply (X st c'). auto. } subst c'.
  destruct (Bad bit_hashes false c st E) as [X|[X|X]].
  - discriminate X.
  - specialize (X _ _ (or_introl eq_refl)). discriminate X.
  - destruct (X 1 (or_introl eq_refl)) as (w & a & b & (wb & [] & _) & _).
Qed.

(** *** What the validator has seen is what is imported *)

(** Of a consignment which has each bundle once the validator can look up every bundle, with
    the witness and anchor it is imported with, and every operation in it. *)
Theorem C65_seen_partial : forall H c w a b, one_copy H c -> holds c w a b ->
  In (bundle_id H b) (index_bundle_ids H c) /\ index_bundle H c (bundle_id H b) = Some b /\ index_anchor H c (bundle_id H b) = Some (w, a) /\
  forall id, mget id (b_known b) <> None -> index_operation H c id <> None /\ index_op_witness_id H c id <> None.
Proof.
  intros H c w a b Oc Hh. split; [apply index_bundle_ids_spec; eauto|].
  pose proof (index_bundle_spec H c (bundle_id H b)) as S.
  destruct (index_bundle H c (bundle_id H b)) as [b'|], (index_anchor H c (bundle_id H b)) as [[w' a']|]; try contradiction.
  2:{ destruct (S _ _ _ Hh eq_refl). }
  destruct S as [Hh' Eb]. destruct (Oc _ _ _ _ _ _ Hh' Hh Eb) as (-> & -> & ->). split; [reflexivity|]. split; [reflexivity|].
  intros id Hk. destruct (mget id (b_known b)) as [t|] eqn:Et; [|congruence]. split; intros E.
  - refine (index_operation_complete H c id _ E t _); [|exact (co_transition H c id t w a b Hh Et)].
    intros w1 a1 b1 w2 a2 b2 H1 H2 E12. destruct (Oc _ _ _ _ _ _ H1 H2 E12) as (_ & _ & ->). reflexivity.
  - pose proof (index_op_spec H c id) as S. rewrite E in S. destruct (mget id (ix_op_bundle (index_new H c))); [contradiction|].
    rewrite (S _ _ _ Hh) in Et. discriminate Et.
Qed.
Corollary C65_alike_partial : forall H c c' w a b, one_copy H c -> one_copy H c' -> look_alike H c c' ->
  (holds c w a b <-> holds c' w a b).
Proof.
  assert (One : forall H c c' w a b, one_copy H c -> look_alike H c c' -> holds c w a b -> holds c' w a b).
  { intros H c c' w a b Oc (_ & _ & _ & _ & _ & _ & Lb & La & _) Hh. destruct (C65_seen_partial H c w a b Oc Hh) as (_ & Eb & Ea & _).
    rewrite Lb in Eb. rewrite La in Ea. pose proof (index_bundle_spec H c' (bundle_id H b)) as S. rewrite Eb, Ea in S. apply S. }
  intros H c c' w a b Oc Oc' L. split; [exact (One H c c' w a b Oc L)|].
  refine (One H c' c w a b Oc' _). destruct L as (L1 & L2 & L3 & L4 & L5 & L6 & L7 & L8 & L9).
  do 4 (split; [symmetry; assumption|]). split; [intros id; symmetry; apply L5|]. split; [symmetry; assumption|].
  split; [intros bid; symmetry; apply L7|]. split; [intros bid; symmetry; apply L8|]. intros id; symmetry; apply L9.
Qed.

(** A second copy of a bundle under another witness is imported, but can not be seen by the
    validator: two consignments which look alike to it, one with a copy of its last bundle
    under transaction 7.  After accepting this one the contract has an allocation at an output
    of transaction 7. *)
Definition id_seal : Seal := {| s_layer := Bitcoin; s_method := TapretFirst; s_txid := None; s_vout := 1; s_blinding := 0 |}.
Definition id_honest : Consignment := cn_cons bit_hashes [] [Revealed id_seal RVoid].
Definition id_forged : Consignment :=
  set_bundles id_honest (cn_wb 7 (cn_bundle bit_hashes [cn_last bit_hashes [Revealed id_seal RVoid]]) :: c_bundles id_honest).
Lemma index_alike H c c' : c_schema c = c_schema c' -> c_types c = c_types c' -> c_scripts c = c_scripts c' -> c_genesis c = c_genesis c' ->
  ix_anchor (index_new H c) = ix_anchor (index_new H c') -> ix_bundle (index_new H c) = ix_bundle (index_new H c') ->
  ix_op_witness (index_new H c) = ix_op_witness (index_new H c') -> ix_op_bundle (index_new H c) = ix_op_bundle (index_new H c') ->
  ix_extension (index_new H c) = ix_extension (index_new H c') -> look_alike H c c'.
Proof.
  intros E1 E2 E3 E4 E5 E6 E7 E8 E9. unfold look_alike, index_operation, index_transition, index_bundle_ids, index_bundle, index_anchor, index_op_witness_id.
  rewrite E1, E2, E3, E4, E5, E6, E7, E8, E9. auto 12.
Qed.
Theorem C65_seen_refuted : forall OG : OrdKey GlobalOut, ~ forall H K c c' r s s1 s2 cid k a mc,
  collision_free H -> reachable H K s -> stock_call_ok H (SkAccept c r) -> stock_call_ok H (SkAccept c' r) -> look_alike H c c' ->
  accept_body H K c r s = (s1, Ok tt) -> accept_body H K c' r s = (s2, Ok tt) ->
  contract_state (sk_state s2) cid = Ok mc -> In a (outs_all k mc) ->
  exists mc1, contract_state (sk_state s1) cid = Ok mc1 /\ In a (outs_all k mc1).
Proof.
  intros OG Bad.
  assert (E1 : exists s1, accept_body bit_hashes cn_merkle id_honest yes_witness sk_empty = (s1, Ok tt) /\
     forall mc1, contract_state (sk_state s1) cn_cid = Ok mc1 -> forallb (fun a => negb (os_txid (oa_seal a) =? 7)) (outs_all KDeclarative mc1) = true).
  { eexists. split; [vm_compute; reflexivity|]. intros mc1 E. vm_compute in E. apply Ok_inj in E. subst mc1. vm_compute. reflexivity. }
  assert (E2 : exists s2 mc, accept_body bit_hashes cn_merkle id_forged yes_witness sk_empty = (s2, Ok tt) /\
     contract_state (sk_state s2) cn_cid = Ok mc /\ existsb (fun a => os_txid (oa_seal a) =? 7) (outs_all KDeclarative mc) = true).
  { eexists. eexists. split; [vm_compute; reflexivity|]. split; vm_compute; reflexivity. }
  destruct E1 as (s1 & E1 & N1). destruct E2 as (s2 & mc & E2 & Ec & Ex).
  apply existsb_exists in Ex as (a & Ha & Et). apply N.eqb_eq in Et.
  destruct (Bad bit_hashes cn_merkle id_honest id_forged yes_witness sk_empty s1 s2 cn_cid KDeclarative a mc) as (mc1 & Ec1 & Ha1); try assumption.
  - exact bit_collision_free.
  - exists []. split; [intros c []|reflexivity].
  - apply cons_okb_ok. vm_compute. reflexivity.
  - apply cons_okb_ok. vm_compute. reflexivity.
  - apply index_alike; vm_compute; reflexivity.
  - specialize (N1 mc1 Ec1). rewrite forallb_forall in N1. specialize (N1 a Ha1). rewrite Et in N1. discriminate N1.
Qed.
Example C65_nonvacuous : one_copy bit_hashes id_honest /\
  holds id_honest {| w_layer := Bitcoin; w_txid := 9 |} {| ea_mpc := 7; ea_dbc := {| dp_method := TapretFirst; dp_data := 0 |} |}
    (cn_bundle bit_hashes [cn_last bit_hashes [Revealed id_seal RVoid]]).
Proof.
  split.
  - intros w a b w' a' b' (x & Hx & <- & C1) (y & Hy & <- & C2) E.
    destruct Hx as [<-|[<-|[]]], Hy as [<-|[<-|[]]]; cbn in C1, C2; inversion C1; inversion C2; subst; try (repeat split; reflexivity);
      vm_compute in E; discriminate E.
  - eexists. split; [right; left; reflexivity|]. split; [reflexivity|constructor].
Qed.

Print Assumptions C64_consignment_id.
Print Assumptions C64_consignment_partial.
Print Assumptions C64_not_committed.
Print Assumptions C64_identifies_refuted.
Print Assumptions C64_revealed.
Print Assumptions C64_into_contract.
Print Assumptions C64_kit_id.
Print Assumptions C64_kit.
Print Assumptions C65_verdict.
Print Assumptions C65_checked_refuted.
Print Assumptions C65_seen_partial.
Print Assumptions C65_alike_partial.
Print Assumptions C65_seen_refuted.
