(** * C26: the calls which store say whether what they stored was new *)
From Verif Require Import Base StM Core Ser MergeSpec ContainerModel PIndexModel StateModel StashModel StockModel ConsignSpec ConsignProps StashProps.
Local Open Scope N_scope.

(** A call which succeeds says [true] exactly if there was nothing under the key before; after
    it there is the given value, *)
Definition puts {S E V} (m : M S E bool) (at_key : S -> option V) (x : V) : Prop :=
  forall s s' b, m s = (s', Ok b) -> (b = true <-> at_key s = None) /\ at_key s' = Some x.
(** or, of calls which do not replace, the one there was. *)
Definition puts_new {S E V} (m : M S E bool) (at_key : S -> option V) (x : V) : Prop :=
  forall s s' b, m s = (s', Ok b) -> (b = true <-> at_key s = None) /\
    at_key s' = Some match at_key s with Some old => old | None => x end.

Ltac tells := intros s s' b;
  unfold replace_schema, replace_iface, replace_genesis, replace_extension, replace_bundle, replace_witness, replace_attachment, replace_lib,
    register_contract, bind, get, put, ret, grown, lift, cinsert, ok_or;
  match goal with |- context [mhas ?k ?m] => destruct (mhas k m) eqn:Eh end;
  match goal with |- context [?x <? ?y] => destruct (x <? y) | _ => idtac end;
  intros E; first [discriminate E|injection E as <- <-];
  match goal with
  | X : mhas _ _ = true |- _ => let v := fresh "v" in let Y := fresh "Y" in pose proof (proj1 (mhas_true _ _) X) as (v & Y)
  | X : mhas _ _ = false |- _ => let Y := fresh "Y" in pose proof (proj1 (mhas_false _ _) X) as Y
  end;
  cbn [st_schemata st_ifaces st_geneses st_extensions st_bundles st_witnesses st_attachments st_libs mi_contracts set_contracts
       with_schemata with_ifaces with_geneses with_extensions with_bundles with_witnesses with_attachments with_libs];
  rewrite ?mget_insert_eq;
  match goal with Y : mget _ _ = _ |- _ => rewrite ?Y end;
  (split; [split; first [discriminate|intros; reflexivity]|reflexivity]).

Theorem C26_new_stored : forall H,
  (forall x, puts_new (replace_schema x) (fun s => mget (sch_id x) (st_schemata s)) {| si_schema := x; si_impls := [] |}) /\
  (forall x, puts_new (replace_iface x) (fun s => mget (if_id x) (st_ifaces s)) x) /\
  (forall x, puts (replace_genesis H x) (fun s => mget (contract_id H x) (st_geneses s)) x) /\
  (forall x, puts (replace_extension H x) (fun s => mget (op_id H x) (st_extensions s)) x) /\
  (forall x, puts (replace_bundle H x) (fun s => mget (bundle_id H x) (st_bundles s)) x) /\
  (forall x, puts (replace_witness x) (fun s => mget (sw_id x) (st_witnesses s)) x) /\
  (forall id x, puts (replace_attachment id x) (fun s => mget id (st_attachments s)) x) /\
  (forall x, puts (replace_lib x) (fun s => mget (fst x) (st_libs s)) (snd x)).
Proof.
  intros H. split; [intros x; tells|]. split; [intros x; tells|]. split; [intros x; tells|]. split; [intros x; tells|].
  split; [intros x; tells|]. split; [intros x; tells|]. split; [intros id x; tells|intros x; tells].
Qed.

(** Implementations are kept per schema and name of the interface. *)
Theorem C26_new_implementation : forall x s s' b i,
  iface_by_id s (im_iface x) = Ok i -> replace_iimpl x s = (s', Ok b) ->
  exists si si', mget (im_schema x) (st_schemata s) = Some si /\ mget (im_schema x) (st_schemata s') = Some si' /\
    si_schema si' = si_schema si /\ (b = true <-> mget (if_name i) (si_impls si) = None) /\ mget (if_name i) (si_impls si') = Some x.
Proof.
  intros x s s' b i Ei. unfold iface_by_id in Ei. unfold replace_iimpl, bind, get, put, ret, grown, lift, cinsert, ok_or.
  destruct (mget (im_schema x) (st_schemata s)) as [si|]; [|discriminate].
  destruct (mget (im_iface x) (st_ifaces s)) as [i'|]; [|discriminate]. cbn in Ei. injection Ei as ->.
  destruct (_ <? _); [|discriminate]. intros E. injection E as <- <-. exists si. eexists. split; [reflexivity|].
  split; [cbn [st_schemata with_schemata]; apply mget_insert_eq|]. split; [reflexivity|]. cbn [si_impls]. split; [|apply mget_insert_eq].
  destruct (mhas _ _) eqn:Eh; [apply mhas_true in Eh as (v & Eh)|apply mhas_false in Eh]; rewrite Eh; cbn; split; congruence.
Qed.

(** Seals *)
Theorem C26_new_seal : forall x s s' b, store_secret_seal x s = (s', Ok b) ->
  (b = true <-> ~ In x (st_seals s)) /\ forall y, In y (st_seals s') <-> y = x \/ In y (st_seals s).
Proof.
  intros x s s' b. unfold store_secret_seal, add_secret_seal, bind, get, put, ret, grown, lift, cpush, ok_or.
  destruct (_ <? _); [|discriminate]. intros E. injection E as <- <-. split; [|intros y; apply In_sinsert].
  destruct (smem x (st_seals s)) eqn:Em; cbn [negb].
  - apply smem_In in Em. split; [discriminate|]. intros Nx. destruct (Nx Em).
  - split; [|reflexivity]. intros _ Hin. apply smem_In in Hin. congruence.
Qed.

(** The index *)
Theorem C26_new_indexed :
  (forall cid, puts_new (register_contract cid) (fun s => mget cid (mi_contracts s)) {| ci_public := []; ci_outs := [] |}) /\
  (forall bid w cid, puts (register_bundle bid w cid) (fun s => mget bid (mi_bundle_contract s)) cid) /\
  (forall opid bid, puts (register_operation opid bid) (fun s => mget opid (mi_op_bundle s)) bid).
Proof.
  split; [intros cid; tells|]. split.
  - intros bid w cid s s' b. unfold register_bundle, push_witness, bind, get, put, ret, fail, cinsert, cpush.
    destruct (mget bid (mi_bundle_contract s)) as [alt|] eqn:Ea; [destruct (alt =? cid); [|discriminate]|].
    all: destruct (_ <? U24MAX); [|discriminate]; destruct (_ <? U8MAX); [|discriminate]; cbn [mi_bundle_contract set_bundle_witness];
      destruct (_ <? U24MAX); [|discriminate]; intros E; injection E as <- <-; cbn [mi_bundle_contract set_bundle_contract set_bundle_witness];
      rewrite mget_insert_eq; unfold mhas; rewrite Ea; cbn; (split; [split; congruence|reflexivity]).
  - intros opid bid s s' b. unfold register_operation, bind, get, put, ret, fail, cinsert.
    destruct (mget opid (mi_op_bundle s)) as [alt|] eqn:Ea; [destruct (alt =? bid); [|discriminate]|].
    all: destruct (_ <? U24MAX); [|discriminate]; intros E; injection E as <- <-; cbn [mi_op_bundle set_op_bundle];
      rewrite mget_insert_eq; unfold mhas; rewrite Ea; cbn; (split; [split; congruence|reflexivity]).
Qed.

(** A schema, an extension and a bundle are new once. *)
Example C26_new_nonvacuous :
  let c := cn_cons bit_hashes [] cn_a in
  let twice {S E} (m : M S E bool) s := (snd (m s), snd (m (fst (m s)))) in
  twice (replace_schema (c_schema c)) st_empty = (Ok true, Ok false) /\
  twice (replace_extension bit_hashes (cn_first bit_hashes)) st_empty = (Ok true, Ok false) /\
  twice (replace_bundle bit_hashes (cn_bundle bit_hashes [cn_first bit_hashes])) st_empty = (Ok true, Ok false) /\
  twice (register_operation 5 7) mi_empty = (Ok true, Ok false) /\
  twice (register_contract 5) mi_empty = (Ok true, Ok false).
Proof. vm_compute. auto 10. Qed.

Print Assumptions C26_new_stored.
Print Assumptions C26_new_implementation.
Print Assumptions C26_new_seal.
Print Assumptions C26_new_indexed.
