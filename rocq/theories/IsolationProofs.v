(** * Contracts next to each other: proofs *)
From Verif Require Import Base StM Core MergeModel MergeSpec MergeProofs ContainerModel ContainerSpec ContainerProofs.
From Verif Require Import PIndexModel PIndexSpec PIndexProofs StateModel StateSpec StateProofs.
From Verif Require Import StashModel StashSpec StashProofs StashAgain StockModel StockProofs StockAgain.
From Verif Require Import ConsignModel ConsignSpec ConsignProofs ConsignAccept ExportSpec ExportProofs IsolationSpec.
Local Open Scope N_scope.

(** ** What a call leaves alone, as long as it is of a certain kind *)

Definition frame {S E A B} (I : S -> Prop) (f : S -> B) (m : M S E A) : Prop :=
  forall s, I s -> f (fst (m s)) = f s /\ I (fst (m s)).
Definition always {S} : S -> Prop := fun _ => True.

Section Frame.
Context {S E B : Type} (I : S -> Prop) (f : S -> B).
Lemma frame_same {A} (m : M S E A) : (forall s, fst (m s) = s) -> frame I f m.
Proof. intros Hm s Hs. rewrite Hm. auto. Qed.
Lemma frame_ret {A} (a : A) : frame (E := E) I f (ret a).
Proof. apply frame_same. reflexivity. Qed.
Lemma frame_fail {A} e : frame (E := E) (A := A) I f (fail e).
Proof. apply frame_same. reflexivity. Qed.
Lemma frame_panic {A} : frame (E := E) (A := A) I f panic.
Proof. apply frame_same. reflexivity. Qed.
Lemma frame_lift {A} (r : result E A) : frame I f (lift r).
Proof. apply frame_same. reflexivity. Qed.
Lemma frame_get : frame (E := E) I f get.
Proof. apply frame_same. reflexivity. Qed.
Lemma frame_bind {A A'} (m : M S E A) (k : A -> M S E A') : frame I f m -> (forall a, frame I f (k a)) -> frame I f (bind m k).
Proof.
  intros Fm Fk s Hs. unfold bind. pose proof (Fm s Hs) as [E1 I1]. destruct (m s) as [s1 [a|e|]]; cbn [fst] in E1, I1; [|auto|auto].
  rewrite <- E1. apply Fk, I1.
Qed.
(** What comes second may rely on the first having succeeded. *)
Lemma frame_then {A A'} (m : M S E A) (k : A -> M S E A') : frame I f m ->
  (forall s s1 a, I s -> m s = (s1, Ok a) -> frame I f (k a)) -> frame I f (bind m k).
Proof.
  intros Fm Fk s Hs. unfold bind. pose proof (Fm s Hs) as [E1 I1]. destruct (m s) as [s1 [a|e|]] eqn:Em; cbn [fst] in E1, I1; [|auto|auto].
  rewrite <- E1. exact (Fk s s1 a Hs Em s1 I1).
Qed.
Lemma frame_mfor {A} (g : A -> M S E unit) l : (forall a, In a l -> frame I f (g a)) -> frame I f (mfor g l).
Proof.
  induction l as [|a l IH]; intros Hg; [apply frame_ret|]. cbn [mfor]. apply frame_bind; [apply Hg; left; reflexivity|].
  intros _. apply IH. intros x Hx. apply Hg. right. exact Hx.
Qed.
(** A call which reads, and writes what was read with a change *)
Lemma frame_reading {A} (k : S -> M S E A) : (forall s, I s -> f (fst (k s s)) = f s /\ I (fst (k s s))) -> frame I f (bind get k).
Proof. intros Hk s Hs. unfold bind, get. apply Hk, Hs. Qed.
Lemma frame_run {A} (m : M S E A) s : frame I f m -> I s -> f (fst (m s)) = f s.
Proof. intros Fm Hs. apply Fm, Hs. Qed.
End Frame.
(** If the invariant is read off what is left alone, it is no burden. *)
Lemma frame_view {S E A B} (P : B -> Prop) (f : S -> B) (m : M S E A) : (forall s, P (f s) -> f (fst (m s)) = f s) -> frame (fun s => P (f s)) f m.
Proof. intros Hf s Hs. rewrite (Hf s Hs). auto. Qed.
Lemma frame_always {S E A B} (f : S -> B) (m : M S E A) : (forall s, f (fst (m s)) = f s) -> frame always f m.
Proof. intros Hf s Hs. split; [apply Hf|exact Hs]. Qed.

(** ** The index *)

Section Index.
Context (H : Hashes) (B : N).

(** What the index has under the contract *)
Definition contract_entry (s : MemIndex) : option ContractIndex := mget B (mi_contracts s).
(** What it has for one bundle of the contract, and whether an operation is in it *)
Definition bundle_entry (bid id : N) (s : MemIndex) : option N * option (oset WitnessId) * bool :=
  (mget bid (mi_bundle_contract s), mget bid (mi_bundle_witness s), keqb (mget id (mi_op_bundle s)) (Some bid)).
Definition of_contract (v : option N * option (oset WitnessId) * bool) : Prop := fst (fst v) = Some B.
Notation fb bid id := (frame (fun s => of_contract (bundle_entry bid id s)) (bundle_entry bid id)).

Lemma put_out_entry cid out oo : cid <> B -> frame always contract_entry (put_out cid out oo).
Proof.
  intros Nc. apply frame_always. intros s. unfold put_out, contract_entry. destruct (mget cid (mi_contracts s)) as [ci|]; [|reflexivity].
  destruct (mget out (ci_outs ci)); [destruct (cpush _ _ _)|destruct (cinsert _ _ _ _)]; try reflexivity;
    cbn [fst set_contracts mi_contracts]; apply mget_insert_ne; congruence.
Qed.
Lemma put_out_bundle bid id cid out oo : fb bid id (put_out cid out oo).
Proof.
  apply frame_view. intros s _. unfold put_out. destruct (mget cid (mi_contracts s)) as [ci|]; [|reflexivity].
  destruct (mget out (ci_outs ci)); [destruct (cpush _ _ _)|destruct (cinsert _ _ _ _)]; reflexivity.
Qed.
Lemma add_terminal_any {V} (f : MemIndex -> V) (Q : MemIndex -> Prop) x oo : (forall s m, Q s -> f (set_terminals s m) = f s /\ Q (set_terminals s m)) ->
  frame Q f (add_terminal x oo).
Proof.
  intros Hf s Hs. unfold add_terminal. destruct (mget x (mi_terminals s)).
  - destruct (cpush _ _ _); [destruct (cinsert _ _ _ _)|]; apply Hf, Hs.
  - destruct (cinsert _ _ _ _); apply Hf, Hs.
Qed.
Lemma op_assigns_any {V} (f : MemIndex -> V) (Q : MemIndex -> Prop) cid opid w o : (forall s m, Q s -> f (set_terminals s m) = f s /\ Q (set_terminals s m)) ->
  (forall out oo, frame Q f (put_out cid out oo)) -> frame Q f (index_op_assigns cid opid w o).
Proof.
  intros Hf Hp. unfold index_op_assigns. apply frame_mfor. intros p _. unfold index_assignments.
  apply frame_bind; [apply frame_get|]. intros s. apply frame_bind; [destruct (mhas _ _); [apply frame_ret|apply frame_fail]|]. intros _.
  apply frame_bind.
  - apply frame_mfor. intros q _. destruct (snd q) as [|x ?| |x ?]; try apply frame_ret; (destruct (assign_output w x); [apply Hp|apply frame_panic]).
  - intros _. unfold extend_terminals. apply frame_mfor. intros q _. destruct (snd q); try apply frame_ret; apply add_terminal_any, Hf.
Qed.
Lemma op_assigns_entry cid opid w o : cid <> B -> frame always contract_entry (index_op_assigns cid opid w o).
Proof. intros Nc. apply op_assigns_any; [intros; split; [reflexivity|exact Logic.I]|]. intros. apply put_out_entry, Nc. Qed.
Lemma op_assigns_bundle bid id cid opid w o : fb bid id (index_op_assigns cid opid w o).
Proof. apply op_assigns_any; [intros s m Hs; split; [reflexivity|exact Hs]|]. intros. apply put_out_bundle. Qed.
Lemma register_bundle_entry bid w cid : frame always contract_entry (register_bundle bid w cid).
Proof.
  apply frame_always. intros s. unfold register_bundle, bind at 1, get. unfold bind at 1.
  match goal with |- context [match ?x with (_, _) => _ end] => destruct x as [s1 r1] eqn:E1 end.
  assert (s1 = s) as ->. { destruct (mget bid _) as [alt|]; [destruct (alt =? cid)|]; injection E1 as <- _; reflexivity. }
  destruct r1; try reflexivity. unfold bind at 1, push_witness. destruct (_ <? _); [|reflexivity].
  destruct (cpush _ _ _); [|reflexivity]. unfold bind, get. destruct (cinsert _ _ _ _); reflexivity.
Qed.
Lemma register_operation_entry id bid : frame always contract_entry (register_operation id bid).
Proof.
  apply frame_always. intros s. unfold register_operation, bind at 1, get. unfold bind at 1.
  match goal with |- context [match ?x with (_, _) => _ end] => destruct x as [s1 r1] eqn:E1 end.
  assert (s1 = s) as ->. { destruct (mget id _) as [alt|]; [destruct (alt =? bid)|]; injection E1 as <- _; reflexivity. }
  destruct r1; try reflexivity. destruct (cinsert _ _ _ _); reflexivity.
Qed.
Lemma pindex_bundle_entry cid b w : cid <> B -> frame always contract_entry (pindex_bundle H cid b w).
Proof.
  intros Nc. unfold pindex_bundle. apply frame_bind; [apply register_bundle_entry|]. intros _. apply frame_mfor. intros p _.
  apply frame_bind; [apply register_operation_entry|]. intros _. apply op_assigns_entry, Nc.
Qed.
Lemma pindex_consignment_entry c : op_id H (c_genesis c) <> B -> frame always contract_entry (pindex_consignment H c).
Proof.
  intros Nc. unfold pindex_consignment. cbv zeta. apply frame_bind.
  { apply frame_always. intros s. unfold register_contract, contract_entry. destruct (mhas _ _); [reflexivity|].
    destruct (cinsert _ _ _ _) eqn:E; [|reflexivity]. apply cinsert_inv in E as [-> _]. apply mget_insert_ne.
    exact Nc. }
  intros _. apply frame_bind; [apply op_assigns_entry, Nc|]. intros _.
  apply frame_bind; [apply frame_mfor; intros e _; apply op_assigns_entry, Nc|]. intros _.
  apply frame_mfor. intros wb _. apply frame_mfor. intros b _. apply pindex_bundle_entry, Nc.
Qed.

(** A bundle of another contract: refused if it is one of the contract *)
Lemma pindex_bundle_own bid id cid b w : cid <> B -> fb bid id (pindex_bundle H cid b w).
Proof.
  intros Nc. destruct (N.eq_dec (bundle_id H b) bid) as [Eb|Eb].
  - apply frame_view. intros s Hs. unfold pindex_bundle, register_bundle, bind, get. unfold of_contract, bundle_entry in Hs. cbn [fst] in Hs.
    rewrite Eb, Hs. destruct (N.eqb_spec B cid) as [E|_]; [destruct (Nc (eq_sym E))|reflexivity].
  - unfold pindex_bundle. apply frame_bind.
    + apply frame_view. intros s Hs. unfold register_bundle, bind at 1, get. unfold bind at 1.
      match goal with |- context [match ?x with (_, _) => _ end] => destruct x as [s1 r1] eqn:E1 end.
      assert (s1 = s) as ->. { destruct (mget _ (mi_bundle_contract s)) as [alt|]; [destruct (alt =? cid)|]; injection E1 as <- _; reflexivity. }
      destruct r1; try reflexivity. unfold bind at 1, push_witness. destruct (_ <? _); [|reflexivity].
      destruct (cpush _ _ _); [|reflexivity]. unfold bind, get. cbn [set_bundle_witness mi_bundle_contract].
      destruct (cinsert _ _ _ _) eqn:Ec; unfold bundle_entry; cbn [fst put ret set_bundle_contract set_bundle_witness mi_bundle_contract mi_bundle_witness mi_op_bundle fail];
        [apply cinsert_inv in Ec as [-> _]|]; rewrite ?mget_insert_ne by congruence; reflexivity.
    + intros _. apply frame_mfor. intros p _. apply frame_bind.
      * apply frame_view. intros s Hs. unfold register_operation, bind at 1, get. unfold bind at 1.
        destruct (mget (fst p) (mi_op_bundle s)) as [alt|] eqn:Ep.
        -- destruct (N.eqb_spec alt (bundle_id H b)) as [Ea|Ea]; [|reflexivity]. cbn [ret].
           destruct (cinsert _ _ _ _) eqn:Ec; [|reflexivity]. apply cinsert_inv in Ec as [-> _]. unfold bundle_entry.
           cbn [fst bind put ret set_op_bundle mi_bundle_contract mi_bundle_witness mi_op_bundle]. f_equal.
           destruct (N.eq_dec id (fst p)) as [->|Np]; [rewrite mget_insert_eq, Ep; subst alt; reflexivity|rewrite mget_insert_ne by congruence; reflexivity].
        -- cbn [ret]. destruct (cinsert _ _ _ _) eqn:Ec; [|reflexivity]. apply cinsert_inv in Ec as [-> _]. unfold bundle_entry.
           cbn [fst bind put ret set_op_bundle mi_bundle_contract mi_bundle_witness mi_op_bundle]. f_equal.
           destruct (N.eq_dec id (fst p)) as [->|Np]; [|rewrite mget_insert_ne by congruence; reflexivity].
           rewrite mget_insert_eq, Ep. apply eq_trans with false; [|symmetry]; apply keqb_neq; [congruence|discriminate].
      * intros _. apply op_assigns_bundle.
Qed.
Lemma pindex_consignment_own bid id c : op_id H (c_genesis c) <> B -> fb bid id (pindex_consignment H c).
Proof.
  intros Nc. unfold pindex_consignment. cbv zeta. apply frame_bind.
  { apply frame_view. intros s _. unfold register_contract. destruct (mhas _ _); [reflexivity|]. destruct (cinsert _ _ _ _); reflexivity. }
  intros _. apply frame_bind; [apply op_assigns_bundle|]. intros _.
  apply frame_bind; [apply frame_mfor; intros e _; apply op_assigns_bundle|]. intros _.
  apply frame_mfor. intros wb _. apply frame_mfor. intros b _. apply pindex_bundle_own, Nc.
Qed.

(** ** The state *)

Context {OG : OrdKey GlobalOut}.
Definition contract_record (s : MemState) : option ContractState := mget B (ms_contracts s).

Lemma on_contract_other cid g : cid <> B -> frame always contract_record (on_contract cid g).
Proof.
  intros Nc. apply frame_always. intros s. unfold on_contract, contract_record. destruct (mget cid _); [|reflexivity]. destruct (g c); try reflexivity.
  cbn [fst set_states ms_contracts]. apply mget_insert_ne. congruence.
Qed.
Lemma set_witness_other w ord : frame always contract_record (set_witness w ord).
Proof. apply frame_always. intros s. unfold set_witness. destruct (cinsert _ _ _ _); reflexivity. Qed.
Lemma update_bundle_other cid b w r : cid <> B -> frame always contract_record (update_from_bundle H cid b w r).
Proof.
  intros Nc. unfold update_from_bundle. apply frame_bind; [apply frame_get|]. intros s.
  apply frame_bind; [destruct (mhas _ _); [apply frame_ret|apply frame_fail]|]. intros _. apply frame_mfor. intros t _.
  apply frame_bind; [apply frame_lift|]. intros ord. apply frame_bind; [apply set_witness_other|]. intros _. apply on_contract_other, Nc.
Qed.
Lemma update_consignment_other c r : op_id H (c_genesis c) <> B -> frame always contract_record (update_from_consignment H c r).
Proof.
  intros Nc. unfold update_from_consignment. cbv zeta. apply frame_bind.
  { apply frame_always. intros s. unfold st_register. cbv zeta. unfold bind at 1, get. unfold bind at 1.
    destruct (mhas (contract_id H (c_genesis c)) (ms_contracts s)).
    - apply (on_contract_other _ _ Nc). exact Logic.I.
    - destruct (cinsert _ _ _ _) eqn:Ec; [|reflexivity]. apply cinsert_inv in Ec as [-> _]. cbn [put].
      unfold add_genesis. rewrite (frame_run _ _ _ _ (on_contract_other _ _ Nc)) by exact Logic.I. unfold contract_record. cbn [set_states ms_contracts].
      apply mget_insert_ne. exact Nc. }
  intros _. apply frame_bind.
  - apply frame_mfor. intros wb _. apply frame_mfor. intros t _. apply frame_bind; [apply frame_lift|]. intros ord.
    apply frame_bind; [apply set_witness_other|]. intros _. apply on_contract_other, Nc.
  - intros _. apply frame_mfor. intros e _. destruct (extension_witness _ _) as [w|]; [|apply frame_ret].
    apply frame_bind; [apply frame_lift|]. intros ord. apply frame_bind; [apply set_witness_other|]. intros _. apply on_contract_other, Nc.
Qed.

(** ** The stash *)

(** Writing a field which is not looked at *)
Definition blind {X V} (I : MemStash -> Prop) (f : MemStash -> V) (w : X -> MemStash -> MemStash) : Prop :=
  forall x s, I s -> f (w x s) = f s /\ I (w x s).

Section Stash.
Context {V : Type} (I : MemStash -> Prop) (f : MemStash -> V).
Notation fr := (frame I f).
Lemma frame_grow {X A} (o : MemStash -> option X) (w : X -> MemStash -> MemStash) (v : MemStash -> A) :
  blind I f w -> fr (do! s <- get ;; do! m <- grown (o s) ;; put (w m s) ;;! ret (v s)).
Proof.
  intros Hw. apply frame_reading. intros s Hs. unfold bind, grown, lift, put, ret. destruct (o s) eqn:Eo; cbn [ok_or fst]; [apply Hw, Hs|auto].
Qed.
(** All fields but the geneses and the bundles *)
Record blind_rest : Prop := {
  br_schemata : blind I f with_schemata; br_ifaces : blind I f with_ifaces; br_suppl : blind I f with_suppl;
  br_types : blind I f with_types; br_identities : blind I f with_identities; br_libs : blind I f with_libs;
  br_sigs : blind I f with_sigs; br_witnesses : blind I f with_witnesses; br_extensions : blind I f with_extensions;
  br_attachments : blind I f with_attachments; br_seals : blind I f with_seals }.
Context (Br : blind_rest).
Lemma kit_any k : fr (consume_kit k).
Proof.
  destruct Br as [Hsc Hif Hsu Hty Hid Hli Hsi _ _ _ _]. unfold consume_kit.
  apply frame_bind. { apply frame_mfor. intros p _. apply frame_reading. intros s Hs. unfold bind, grown, lift, put. destruct (cinsert _ _ _ _); cbn [ok_or fst]; [apply Hty, Hs|auto]. }
  intros _. apply frame_bind. { apply frame_mfor. intros p _. apply frame_bind; [|intros; apply frame_ret]. apply (frame_grow _ with_libs), Hli. }
  intros _. apply frame_bind. { apply frame_mfor. intros p _. apply frame_bind; [|intros; apply frame_ret]. apply frame_reading. intros s Hs.
    destruct (mhas _ _); [cbn; auto|]. unfold bind, grown, lift, put, ret. destruct (cinsert _ _ _ _); cbn [ok_or fst]; [apply Hsc, Hs|auto]. }
  intros _. apply frame_bind. { apply frame_mfor. intros p _. apply frame_bind; [|intros; apply frame_ret]. apply frame_reading. intros s Hs.
    destruct (mhas _ _); [cbn; auto|]. unfold bind, grown, lift, put, ret. destruct (cinsert _ _ _ _); cbn [ok_or fst]; [apply Hif, Hs|auto]. }
  intros _. apply frame_bind. { apply frame_mfor. intros p _. apply frame_bind; [|intros; apply frame_ret]. apply frame_reading. intros s Hs.
    destruct (mget (im_schema p) _); [|cbn; auto]. destruct (mget (im_iface p) _); [|cbn; auto].
    unfold bind, grown, lift, put, ret. destruct (cinsert _ _ _ _); cbn [ok_or fst]; [apply Hsc, Hs|auto]. }
  intros _. apply frame_bind. { apply frame_mfor. intros p _. apply frame_reading. intros s Hs. unfold bind, grown, lift, put.
    destruct (mget _ _); [destruct (cpush _ _ _)|destruct (cinsert _ _ _ _)]; cbn [ok_or fst]; (apply Hsu, Hs || auto). }
  intros _. apply frame_mfor. intros p _ s Hs. unfold attempt.
  assert (G : f (fst (import_sigs (fst p) (snd p) s)) = f s /\ I (fst (import_sigs (fst p) (snd p) s))).
  { unfold import_sigs, bind, get. destruct (mget (fst p) (st_sigs s)).
    - destruct (add_sigs _ _ _) as [[ids acc] ok]. pose proof (Hid ids s Hs) as [E1 I1].
      pose proof (Hsi (minsert (fst p) acc (st_sigs s)) _ I1) as [E2 I2]. rewrite <- E1, <- E2. destruct ok; cbn [put fst ret fail]; auto.
    - destruct (add_sigs _ _ _) as [[ids acc] ok]. pose proof (Hid ids s Hs) as [E1 I1]. destruct ok; cbn [put negb fst fail]; [|auto].
      destruct (len acc =? 0); [cbn; auto|]. destruct (cinsert _ _ _ _) as [m|]; cbn [put ret fst]; [|auto]. rewrite <- E1. apply Hsi, I1. }
  destruct (import_sigs _ _ s) as [s1 [u|e|]]; exact G.
Qed.
Lemma witness_any w : fr (consume_witness w).
Proof.
  unfold consume_witness. apply frame_bind; [apply frame_get|]. intros s. apply frame_bind.
  - destruct (mget _ _); [|apply frame_ret]. apply frame_bind; [apply frame_lift|]. intros p. apply frame_bind; [apply frame_lift|]. intros a. apply frame_ret.
  - intros w'. apply (frame_grow _ with_witnesses), Br.
Qed.
Lemma seal_any x : fr (store_secret_seal x).
Proof.
  assert (G : fr (add_secret_seal x)) by (apply (frame_grow _ with_seals), Br).
  intros s Hs. specialize (G s Hs). unfold store_secret_seal. destruct (add_secret_seal x s) as [s1 [u|e|]]; exact G.
Qed.
Lemma consignment_any K c : fr (consume_genesis H (c_genesis c)) ->
  (forall wb b, In wb (c_bundles c) -> In b (anchored_bundles (wb_bundles wb)) -> fr (consume_bundle H b)) ->
  fr (consume_consignment H K c).
Proof.
  intros Fg Fb. unfold consume_consignment. cbv zeta. apply frame_bind; [exact Fg|]. intros _.
  apply frame_bind. { apply frame_mfor. intros e _. unfold consume_extension. apply frame_bind; [apply frame_get|]. intros s.
    apply frame_bind; [destruct (mget _ _); [apply frame_lift|apply frame_ret]|]. intros e'. apply frame_bind; [|intros; apply frame_ret].
    apply (frame_grow _ with_extensions), Br. }
  intros _. apply frame_bind.
  { apply frame_mfor. intros wb Hwb. unfold consume_witness_bundle. apply frame_bind.
    - assert (Hb : forall p, In p (anchored_iter (wb_bundles wb)) -> fr (consume_bundle H (snd p))).
      { intros p Hp. apply (Fb wb); [exact Hwb|]. rewrite anchored_bundles_map. apply in_map, Hp. }
      revert Hb. generalize (contract_id H (c_genesis c)) as cid. induction (anchored_iter (wb_bundles wb)) as [|p l IH]; intros cid Hb; cbn [anchor_all]; [apply frame_ret|].
      apply frame_bind.
      + unfold anchor_bundle. cbv zeta. apply frame_bind; [apply Hb; left; reflexivity|]. intros _. apply frame_bind; [apply frame_lift|]. intros. apply frame_ret.
      + intros a. apply frame_bind; [apply IH; intros q Hq; apply Hb; right; exact Hq|]. intros r. apply frame_ret.
    - intros l. apply frame_bind.
      + unfold anchors_of. destruct (rev l) as [|[[] ?] [|[[] ?] ?]]; apply frame_ret || apply frame_panic.
      + intros a. apply frame_bind; [apply witness_any|]. intros. apply frame_ret. }
  intros _. apply frame_bind.
  { apply frame_mfor. intros p _. apply frame_bind; [|intros; apply frame_ret]. apply (frame_grow _ with_attachments), Br. }
  intros _. apply kit_any.
Qed.
End Stash.

(** Everything is filed under its id. *)
Definition well_filed (s : MemStash) : Prop :=
  (forall cid g, mget cid (st_geneses s) = Some g -> op_wf g /\ op_id H g = cid) /\
  (forall bid b, mget bid (st_bundles s) = Some b -> bundle_id H b = bid).

Context (HC : collision_free H).
(** The genesis of another contract *)
Lemma genesis_filed g : op_wf g -> frame well_filed (fun _ => tt) (consume_genesis H g).
Proof.
  intros Wg s (Fg & Fb). split; [reflexivity|]. unfold consume_genesis, bind at 1, get. unfold bind at 1.
  assert (G : forall g', op_wf g' -> op_id H g' = op_id H g -> well_filed (fst ((replace_genesis H g' ;;! ret tt) s))).
  { intros g' Wg' Eg'. unfold replace_genesis, bind, get, grown, lift, put, ret. destruct (cinsert _ _ _ _) eqn:Ec; cbn [ok_or fst]; [|split; assumption].
    apply cinsert_inv in Ec as [-> _]. split; [|exact Fb]. cbn [with_geneses st_geneses]. intros cid x. rewrite mget_insert.
    destruct (keqb_spec cid (contract_id H g')) as [->|_]; [|apply Fg]. intros Ex. apply Some_inj in Ex as <-. auto. }
  destruct (mget (contract_id H g) (st_geneses s)) as [old|] eqn:Eo; [|apply G; auto].
  destruct (Fg _ _ Eo) as [Wo _].
  destruct (merge_op H old g) as [g'| |] eqn:Em; cbn [rmap_err lift]; try (split; assumption).
  destruct (merge_op_shape H HC _ _ _ Wo Em) as (E1 & _ & _ & _ & E2 & W2). apply G; [exact W2|congruence].
Qed.
Lemma genesis_other g : op_wf g -> op_id H g <> B -> frame well_filed (fun s => mget B (st_geneses s)) (consume_genesis H g).
Proof.
  intros Wg Ng s (Fg & Fb). split; [|apply genesis_filed; [exact Wg|split; assumption]]. unfold consume_genesis, bind at 1, get. unfold bind at 1.
  assert (G : forall g', op_id H g' = op_id H g -> mget B (st_geneses (fst ((replace_genesis H g' ;;! ret tt) s))) = mget B (st_geneses s)).
  { intros g' Eg'. unfold replace_genesis, bind, get, grown, lift, put, ret. destruct (cinsert _ _ _ _) eqn:Ec; cbn [ok_or fst]; [|reflexivity].
    apply cinsert_inv in Ec as [-> _]. cbn [with_geneses st_geneses]. apply mget_insert_ne. unfold contract_id. congruence. }
  destruct (mget (contract_id H g) (st_geneses s)) as [old|] eqn:Eo; [|apply G; auto].
  destruct (Fg _ _ Eo) as [Wo _].
  destruct (merge_op H old g) as [g'| |] eqn:Em; cbn [rmap_err lift]; try reflexivity.
  destruct (merge_op_shape H HC _ _ _ Wo Em) as (E1 & _ & _ & _ & E2 & W2). apply G; congruence.
Qed.
(** A bundle with another id *)
Lemma bundle_any {V} (f : MemStash -> V) b :
  (forall b' s, bundle_id H b' = bundle_id H b -> f (with_bundles (minsert (bundle_id H b) b' (st_bundles s)) s) = f s) -> frame well_filed f (consume_bundle H b).
Proof.
  intros Hf. unfold consume_bundle. apply frame_reading. intros s (Fg & Fb). unfold bind.
  assert (G : forall b', bundle_id H b' = bundle_id H b -> f (fst (replace_bundle H b' s)) = f s /\ well_filed (fst (replace_bundle H b' s))).
  { intros b' Eb'. unfold replace_bundle, bind, get, grown, lift, put, ret. destruct (cinsert _ _ _ _) eqn:Ec; cbn [ok_or fst]; [|split; [reflexivity|split; assumption]].
    apply cinsert_inv in Ec as [-> _]. rewrite Eb'. split; [apply Hf, Eb'|]. split; [exact Fg|]. cbn [with_bundles st_bundles].
    intros bid x. rewrite mget_insert. destruct (keqb_spec bid (bundle_id H b)) as [->|_]; [|apply Fb]. intros Ex. apply Some_inj in Ex as <-. exact Eb'. }
  destruct (mget (bundle_id H b) (st_bundles s)) as [old|] eqn:Eo; [|apply G; reflexivity].
  destruct (merge_bundle H old b) as [b'| |] eqn:Em; cbn [rmap_err lift]; try (split; [reflexivity|split; assumption]).
  apply G. rewrite (merge_bundle_id H _ _ _ Em). exact (Fb _ _ Eo).
Qed.
Lemma bundle_other bid b : bundle_id H b <> bid -> frame well_filed (fun s => mget bid (st_bundles s)) (consume_bundle H b).
Proof. intros Nb. apply bundle_any. intros b' s _. cbn. apply mget_insert_ne. congruence. Qed.

(** ** The stock *)

Lemma well_filed_rest {V} (f : MemStash -> V) : (forall s s', st_geneses s' = st_geneses s -> st_bundles s' = st_bundles s -> f s' = f s) -> blind_rest well_filed f.
Proof. intros Hf. constructor; intros x s Hs; (split; [apply Hf; reflexivity|exact Hs]). Qed.

(** What is known of the contract, apart from its bundles *)
Definition record_of (s : Stock) := (contract_record (sk_state s), contract_entry (sk_index s), mget B (st_geneses (sk_stash s))).
(** and one of its bundles *)
Definition bundle_of (bid id : N) (s : Stock) := (bundle_entry bid id (sk_index s), mget bid (st_bundles (sk_stash s))).
Definition inv1 (s : Stock) : Prop := well_filed (sk_stash s).
Definition inv2 (bid id : N) (s : Stock) : Prop := well_filed (sk_stash s) /\ wf (sk_index s) /\ of_contract (bundle_entry bid id (sk_index s)).

Lemma stash_frame1 {A} (m : STM A) : frame well_filed (fun s => mget B (st_geneses s)) m -> frame inv1 record_of (on_stash m).
Proof.
  intros Fm s Hs. specialize (Fm (sk_stash s) Hs). unfold on_stash, record_of, inv1. destruct (m (sk_stash s)) as [x r]. cbn in *.
  destruct Fm as [-> Fm]. auto.
Qed.
Lemma stash_frame2 {A} bid id (m : STM A) : frame well_filed (fun s => mget bid (st_bundles s)) m -> frame (inv2 bid id) (bundle_of bid id) (on_stash m).
Proof.
  intros Fm s (Hs & Hw & Ho). specialize (Fm (sk_stash s) Hs). unfold on_stash, bundle_of, inv2. destruct (m (sk_stash s)) as [x r]. cbn in *.
  destruct Fm as [-> Fm]. auto.
Qed.
Lemma state_frame1 {A} (m : M MemState StateError A) : frame always contract_record m -> frame inv1 record_of (on_state m).
Proof.
  intros Fm s Hs. specialize (Fm (sk_state s) Logic.I). unfold on_state, record_of, inv1. destruct (m (sk_state s)) as [x r]. cbn in *.
  destruct Fm as [-> Fm]. auto.
Qed.
Lemma state_frame2 {A} bid id (m : M MemState StateError A) : frame (inv2 bid id) (bundle_of bid id) (on_state m).
Proof.
  intros s Hs. unfold on_state. destruct (m (sk_state s)) as [x r]. split; [reflexivity|exact Hs].
Qed.
Lemma index_frame1 {A} (m : M MemIndex IndexError A) : frame always contract_entry m -> frame inv1 record_of (on_index m).
Proof.
  intros Fm s Hs. specialize (Fm (sk_index s) Logic.I). unfold on_index, record_of, inv1. destruct (m (sk_index s)) as [x r]. cbn in *.
  destruct Fm as [-> Fm]. auto.
Qed.
Lemma index_frame2 bid id x : fb bid id (index_call H x) -> frame (inv2 bid id) (bundle_of bid id) (on_index (index_call H x)).
Proof.
  intros Fm s (Hs & Hw & Ho). specialize (Fm (sk_index s) Ho). unfold on_index, bundle_of, inv2.
  destruct (index_call H x (sk_index s)) as [y r] eqn:E. destruct (adds_call H x _ _ _ E Hw) as [Wy _]. cbn [fst sk_stash sk_index] in *.
  destruct Fm as [Fm1 Fm2]. rewrite Fm1 in *. auto.
Qed.
(** After an index took a bundle for another contract, it is not one of the contract. *)
Lemma index_took bid id x s s' b cid : cid <> B -> fb bid id (index_call H x) -> inv2 bid id s ->
  on_index (index_call H x) s = (s', Ok tt) -> announces H x (FBundle (bundle_id H b) cid) -> bundle_id H b <> bid.
Proof.
  intros Nc Fm Hi E An Eb. destruct (index_frame2 bid id x Fm s Hi) as [_ (_ & _ & Ho)]. destruct Hi as (_ & Hw & _). rewrite E in Ho. cbn [fst] in Ho.
  unfold on_index in E. destruct (index_call H x (sk_index s)) as [y [u|e|]] eqn:Ey; cbn [rmap_err] in E; try discriminate E.
  injection E as <-. cbn [sk_index] in Ho. destruct (adds_call H x _ _ _ Ey Hw) as (_ & _ & _ & C).
  assert (Hf : states y (FBundle (bundle_id H b) cid)) by (apply (C u eq_refl); right; left; exact An).
  unfold of_contract, bundle_entry in Ho. cbn in Ho, Hf. rewrite Eb, Ho in Hf. apply Some_inj in Hf. congruence.
Qed.

Context (K : Merkle).
Lemma fascia_frame1 w r p : fst p <> B -> frame inv1 record_of (fascia_bundle H w r p).
Proof.
  intros Np. unfold fascia_bundle. apply frame_bind; [destruct (known_subset _); [apply frame_ret|apply frame_fail]|]. intros _.
  apply frame_bind; [apply index_frame1, pindex_bundle_entry, Np|]. intros _.
  apply frame_bind; [apply state_frame1, update_bundle_other, Np|]. intros _.
  apply frame_bind; [|intros; apply frame_ret]. apply stash_frame1, bundle_any. reflexivity.
Qed.
Lemma fascia_frame2 bid id w r p : fst p <> B -> frame (inv2 bid id) (bundle_of bid id) (fascia_bundle H w r p).
Proof.
  intros Np. unfold fascia_bundle. apply frame_bind; [destruct (known_subset _); [apply frame_ret|apply frame_fail]|]. intros _.
  assert (Fx : fb bid id (index_call H (IxBundle (fst p) (snd p) w))) by apply pindex_bundle_own, Np.
  apply (frame_then _ _ (on_index (index_call H (IxBundle (fst p) (snd p) w)))); [apply index_frame2, Fx|]. intros s s1 [] Hs Ex.
  assert (Nb : bundle_id H (snd p) <> bid) by (apply (index_took bid id _ s s1 (snd p) (fst p) Np Fx Hs Ex); left; reflexivity).
  apply frame_bind; [apply state_frame2|]. intros _. apply frame_bind; [|intros; apply frame_ret]. apply stash_frame2, bundle_other, Nb.
Qed.

Lemma call_frame1 c : stock_call_ok H c -> not_about H B c -> frame inv1 record_of (stock_body H K c).
Proof.
  intros Oc Nc. destruct c as [c r|f r|k|x|r after|]; cbn [stock_body].
  - unfold accept_body. apply frame_bind; [apply frame_get|]. intros s. apply frame_then; [apply frame_lift|]. intros s0 s1 c' _ Ec.
    assert (Er : resolve_secrets H (sk_stash s) c = Ok c').
    { unfold lift in Ec. apply (f_equal snd) in Ec. cbn [snd] in Ec. destruct (resolve_secrets H (sk_stash s) c); cbn in Ec; congruence. }
    assert (Eg : c_genesis c' = c_genesis c) by (destruct (resolve_alike H _ _ _ Er) as [-> _]; reflexivity).
    cbn [not_about] in Nc. rewrite <- Eg in Nc. pose proof (proj1 (resolve_ok H _ _ _ r Oc Er)) as Oc'.
    apply frame_bind; [apply state_frame1, update_consignment_other, Nc|]. intros _.
    apply frame_bind; [apply index_frame1, pindex_consignment_entry, Nc|]. intros _.
    apply stash_frame1, consignment_any; [apply well_filed_rest; intros ? ? -> _; reflexivity|apply genesis_other; [apply Oc'|exact Nc]|].
    intros. apply bundle_any. reflexivity.
  - unfold fascia_body. apply frame_bind; [apply stash_frame1, witness_any, well_filed_rest; intros ? ? -> _; reflexivity|]. intros _.
    apply frame_mfor. intros [cid b] Hp. apply fascia_frame1. exact (Nc cid b Hp).
  - apply stash_frame1, kit_any, well_filed_rest. intros ? ? -> _. reflexivity.
  - apply frame_bind; [|intros; apply frame_ret]. apply stash_frame1, seal_any, well_filed_rest. intros ? ? -> _. reflexivity.
  - apply frame_bind; [|intros; apply frame_ret]. apply state_frame1. apply frame_always. reflexivity.
  - apply frame_ret.
Qed.
Lemma call_frame2 bid id c : stock_call_ok H c -> not_about H B c -> frame (inv2 bid id) (bundle_of bid id) (stock_body H K c).
Proof.
  intros Oc Nc. destruct c as [c r|f r|k|x|r after|]; cbn [stock_body].
  - unfold accept_body. apply frame_bind; [apply frame_get|]. intros s. apply frame_then; [apply frame_lift|]. intros s0 s1 c' _ Ec.
    assert (Er : resolve_secrets H (sk_stash s) c = Ok c').
    { unfold lift in Ec. apply (f_equal snd) in Ec. cbn [snd] in Ec. destruct (resolve_secrets H (sk_stash s) c); cbn in Ec; congruence. }
    assert (Eg : c_genesis c' = c_genesis c) by (destruct (resolve_alike H _ _ _ Er) as [-> _]; reflexivity).
    cbn [not_about] in Nc. rewrite <- Eg in Nc. pose proof (proj1 (resolve_ok H _ _ _ r Oc Er)) as Oc'.
    apply frame_bind; [apply state_frame2|]. intros _.
    assert (Fx : fb bid id (index_call H (IxConsignment c'))) by apply pindex_consignment_own, Nc.
    apply (frame_then _ _ (on_index (index_call H (IxConsignment c')))); [apply index_frame2, Fx|]. intros t t1 [] Ht Ex.
    apply stash_frame2, consignment_any; [apply well_filed_rest; intros ? ? _ ->; reflexivity| |].
    + intros q Hq. split; [|apply genesis_filed; [apply Oc'|exact Hq]]. revert q Hq.
      assert (G : frame always (fun s => mget bid (st_bundles s)) (consume_genesis H (c_genesis c'))).
      { unfold consume_genesis. apply frame_bind; [apply frame_get|]. intros q. apply frame_bind; [destruct (mget _ _); [apply frame_lift|apply frame_ret]|].
        intros g'. apply frame_bind; [|intros; apply frame_ret]. apply (frame_grow _ _ _ with_geneses). intros y z _. split; [reflexivity|exact Logic.I]. }
      intros q _. apply G. exact Logic.I.
    + intros wb b Hwb Hb. apply bundle_other. apply (index_took bid id _ t t1 b (op_id H (c_genesis c')) Nc Fx Ht Ex).
      right; right; right. exists wb, b. split; [exact Hwb|]. split; [exact Hb|]. left. reflexivity.
  - unfold fascia_body. apply frame_bind; [apply stash_frame2, witness_any, well_filed_rest; intros ? ? _ ->; reflexivity|]. intros _.
    apply frame_mfor. intros [cid b] Hp. apply fascia_frame2. exact (Nc cid b Hp).
  - apply stash_frame2, kit_any, well_filed_rest. intros ? ? _ ->. reflexivity.
  - apply frame_bind; [|intros; apply frame_ret]. apply stash_frame2, seal_any, well_filed_rest. intros ? ? _ ->. reflexivity.
  - apply frame_bind; [|intros; apply frame_ret]. apply state_frame2.
  - apply frame_ret.
Qed.

(** After any number of calls *)
Lemma calls_frame1 s l : (forall c, In c l -> stock_call_ok H c /\ not_about H B c) -> inv1 s -> record_of (stock_after H K s l) = record_of s.
Proof.
  unfold stock_after. revert s. induction l as [|c l IH]; intros s Hl Hs; [reflexivity|]. cbn [fold_left].
  destruct (Hl c (or_introl eq_refl)) as [Oc Nc]. destruct (call_frame1 c Oc Nc s Hs) as [E I1]. rewrite <- E. apply IH; [|exact I1].
  intros d Hd. apply Hl. right. exact Hd.
Qed.
Lemma calls_frame2 bid id s l : (forall c, In c l -> stock_call_ok H c /\ not_about H B c) -> inv2 bid id s -> bundle_of bid id (stock_after H K s l) = bundle_of bid id s.
Proof.
  unfold stock_after. revert s. induction l as [|c l IH]; intros s Hl Hs; [reflexivity|]. cbn [fold_left].
  destruct (Hl c (or_introl eq_refl)) as [Oc Nc]. destruct (call_frame2 bid id c Oc Nc s Hs) as [E I1]. rewrite <- E. apply IH; [|exact I1].
  intros d Hd. apply Hl. right. exact Hd.
Qed.
End Index.

(** ** Put together *)

Record kept (B : N) (s s' : Stock) : Prop := {
  kp_state : mget B (ms_contracts (sk_state s')) = mget B (ms_contracts (sk_state s));
  kp_outs : mget B (mi_contracts (sk_index s')) = mget B (mi_contracts (sk_index s));
  kp_genesis : mget B (st_geneses (sk_stash s')) = mget B (st_geneses (sk_stash s));
  kp_bundle : forall bid, mget bid (mi_bundle_contract (sk_index s)) = Some B ->
    mget bid (mi_bundle_contract (sk_index s')) = Some B /\
    mget bid (mi_bundle_witness (sk_index s')) = mget bid (mi_bundle_witness (sk_index s)) /\
    mget bid (st_bundles (sk_stash s')) = mget bid (st_bundles (sk_stash s)) /\
    forall id, mget id (mi_op_bundle (sk_index s')) = Some bid <-> mget id (mi_op_bundle (sk_index s)) = Some bid
}.

Lemma all_kept {OG : OrdKey GlobalOut} H K B s l : collision_free H -> reachable H K s ->
  (forall c, In c l -> stock_call_ok H c /\ not_about H B c) -> kept B s (stock_after H K s l).
Proof.
  intros HC Re Hl. destruct (reachable_sound H HC K s Re) as [Wx Gs].
  assert (Fs : well_filed H (sk_stash s)).
  { split; [intros cid g E; split; [apply (go_gen _ _ Gs _ _ E)|apply (fi_genesis _ _ (go_filed _ _ Gs) _ _ E)]|intros bid b E; apply (fi_bundle _ _ (go_filed _ _ Gs) _ _ E)]. }
  pose proof (calls_frame1 H B HC K s l Hl Fs) as E1. set (s' := stock_after H K s l) in *.
  pose proof (f_equal snd E1) as Eg. apply (f_equal fst) in E1. pose proof (f_equal snd E1) as Eo. apply (f_equal fst) in E1. cbn in E1, Eg, Eo.
  constructor; [exact E1|exact Eo|exact Eg|]. intros bid Hb.
  assert (E2 : forall id, bundle_of bid id s' = bundle_of bid id s).
  { intros id. apply (calls_frame2 H B HC K bid id s l Hl). split; [exact Fs|]. split; [exact Wx|exact Hb]. }
  pose proof (E2 0) as E0. pose proof (f_equal snd E0) as Eb. apply (f_equal fst) in E0. apply (f_equal fst) in E0. pose proof (f_equal snd E0) as Ew. apply (f_equal fst) in E0.
  cbn in E0, Eb, Ew. split; [congruence|]. split; [exact Ew|]. split; [exact Eb|]. intros id.
  specialize (E2 id). apply (f_equal fst) in E2. apply (f_equal snd) in E2. cbn [bundle_of bundle_entry fst snd] in E2.
  split; intros E; [assert (Q : keqb (mget id (mi_op_bundle (sk_index s))) (Some bid) = true)|assert (Q : keqb (mget id (mi_op_bundle (sk_index s'))) (Some bid) = true)];
    try (rewrite E2 || rewrite <- E2; rewrite E; apply keqb_refl); apply keqb_true, Q.
Qed.

(** ** What can be exported *)

Section Export.
Context (H : Hashes) (K : Merkle) (B : N) (s s' : Stock) (outputs : list OutSeal).
Context (Kp : kept B s s') (Own : own_history s B outputs) (Sw : same_witnesses s s' B).
Context (Kn : forall id, found_history s B outputs None id -> exists t, known_op s id t).

Lemma out_kept out oo : states (sk_index s') (FOut B out oo) <-> states (sk_index s) (FOut B out oo).
Proof. cbn. rewrite (kp_outs _ _ _ Kp). tauto. Qed.
Lemma found_kept oo : found s' B outputs None oo <-> found s B outputs None oo.
Proof.
  unfold found. setoid_rewrite out_kept. split; (intros [Hl|(x & Ex & _)]; [left; exact Hl|discriminate Ex]).
Qed.
Lemma known_fwd id bid t : found_history s B outputs None id -> known_in s id bid t -> known_in s' id bid t.
Proof.
  intros Hf (Ei & b & Eb & Et). destruct (kp_bundle _ _ _ Kp bid (Own id bid Hf Ei)) as (_ & _ & Es & Eo).
  split; [apply Eo, Ei|]. exists b. rewrite Es. auto.
Qed.
Lemma known_kept id bid t : found_history s B outputs None id -> (known_in s' id bid t <-> known_in s id bid t).
Proof.
  intros Hf. split; [|apply known_fwd, Hf]. intros Hk. destruct (Kn id Hf) as (t0 & bid0 & K0).
  destruct (known_in_fun s' id bid t bid0 t0 Hk (known_fwd _ _ _ Hf K0)) as [-> ->]. exact K0.
Qed.
Lemma history_kept id : found_history s' B outputs None id <-> found_history s B outputs None id.
Proof.
  split.
  - intros Hr. induction Hr as [id (oo & Ho & Eo) Ni|id t i Hr IH (bid & Hk) Hi Ni].
    + apply reached_start; [exists oo; split; [apply found_kept, Ho|exact Eo]|exact Ni].
    + apply reached_parent with (id := id) (t := t); [exact IH| |exact Hi|exact Ni]. exists bid. apply (known_kept id bid t IH), Hk.
  - intros Hr. induction Hr as [id (oo & Ho & Eo) Ni|id t i Hr IH (bid & Hk) Hi Ni].
    + apply reached_start; [exists oo; split; [apply found_kept, Ho|exact Eo]|exact Ni].
    + apply reached_parent with (id := id) (t := t); [exact IH| |exact Hi|exact Ni]. exists bid. apply (known_kept id bid t Hr), Hk.
Qed.
Lemma chosen_kept bid w : states (sk_index s) (FBundle bid B) -> (chosen s' bid w <-> chosen s bid w).
Proof.
  intros Hb. destruct (kp_bundle _ _ _ Kp bid Hb) as (_ & Ew & _).
  assert (Fw : forall x, states (sk_index s') (FWitness bid x) <-> states (sk_index s) (FWitness bid x)) by (intros x; cbn; rewrite Ew; tauto).
  unfold chosen, live. split; intros (H1 & H2 & H3).
  - pose proof (proj1 (Fw w) H1) as H1'. split; [exact H1'|]. rewrite <- (proj1 (Sw bid w Hb H1')). split; [exact H2|].
    intros w' Hw' Lt'. rewrite <- (proj1 (Sw bid w' Hb Hw')). apply H3; [apply Fw, Hw'|exact Lt'].
  - split; [apply Fw, H1|]. rewrite (proj1 (Sw bid w Hb H1)). split; [exact H2|].
    intros w' Hw' Lt'. apply Fw in Hw'. rewrite (proj1 (Sw bid w' Hb Hw')). apply H3; [exact Hw'|exact Lt'].
Qed.
Lemma anchored_kept bid w a b : states (sk_index s) (FBundle bid B) -> anchored K s bid w a b -> anchored K s' bid w a b.
Proof.
  intros Hb (H1 & H2 & H3 & cid & sw & an & H4 & H5 & H6). destruct (kp_bundle _ _ _ Kp bid Hb) as (Eb & Ew & Es & _).
  destruct (Sw bid w Hb H2) as [S1 S2]. unfold anchored. rewrite Es. split; [exact H1|]. split; [cbn; rewrite Ew; exact H2|].
  split; [unfold live in *; rewrite S1; exact H3|]. exists cid, sw, an. rewrite S2. split; [|auto].
  cbn in *. rewrite Eb, <- Hb. exact H4.
Qed.
Lemma at_most_iff {A} n (P Q : A -> Prop) : (forall x, Q x -> P x) -> at_most n P -> at_most n Q.
Proof. intros HPQ Hm l Nd Hl. apply Hm; [exact Nd|]. intros x Hx. apply HPQ, Hl, Hx. Qed.
End Export.

Lemma export_kept H K B s s' outputs : kept B s s' -> own_history s B outputs -> same_witnesses s s' B ->
  definable (sk_stash s') B -> exportable H K s B outputs None -> exportable H K s' B outputs None.
Proof.
  intros Kp Own Sw Df X. pose proof (xp_known _ _ _ _ _ _ X) as Kn.
  pose proof (history_kept B s s' outputs Kp Own Kn) as Hh. pose proof (fun id bid t => known_kept B s s' outputs Kp Own Kn id bid t) as Hk.
  pose proof (out_kept B s s' Kp) as Ho.
  assert (Kb : forall id bid t, found_history s B outputs None id -> known_in s id bid t -> states (sk_index s) (FBundle bid B)).
  { intros id bid t Hf (Ei & _). exact (Own id bid Hf Ei). }
  assert (Kc : forall id bid t w, found_history s B outputs None id -> known_in s id bid t -> chosen s' bid w -> chosen s bid w).
  { intros id bid t w Hf Hkn Hc. apply (chosen_kept B s s' Kp Sw bid w (Kb id bid t Hf Hkn)), Hc. }
  assert (Ks : forall id bid t, found_history s B outputs None id -> known_in s id bid t -> mget bid (st_bundles (sk_stash s')) = mget bid (st_bundles (sk_stash s))).
  { intros id bid t Hf Hkn. apply (kp_bundle _ _ _ Kp bid (Kb id bid t Hf Hkn)). }
  constructor.
  - rewrite (kp_outs _ _ _ Kp). apply (xp_contract _ _ _ _ _ _ X).
  - intros o Hin. destruct (xp_outputs _ _ _ _ _ _ X o Hin) as (out & oo & E & Hs). exists out, oo. split; [exact E|apply Ho, Hs].
  - intros id Hf. apply Hh in Hf. destruct (Kn id Hf) as (t & bid & Hkn). exists t, bid. apply Hk; assumption.
  - intros id bid t Hf Hkn. apply Hh in Hf. apply (Hk id bid t Hf) in Hkn. destruct (xp_bundle _ _ _ _ _ _ X id bid t Hf Hkn) as (w & a & b & Hc & Ha).
    exists w, a, b. split; [apply (chosen_kept B s s' Kp Sw bid w (Kb id bid t Hf Hkn)), Hc|apply (anchored_kept K B s s' Kp Sw); [exact (Kb id bid t Hf Hkn)|exact Ha]].
  - intros id t i bid t' b Hf (bid0 & Hkn) Hi Ni Hkn' Eb. apply Hh in Hf. apply (Hk id bid0 t Hf) in Hkn.
    assert (Hf' : found_history s B outputs None (oo_op i)) by (apply reached_parent with (id := id) (t := t); [exact Hf|exists bid0; exact Hkn|exact Hi|exact Ni]).
    apply (Hk _ _ _ Hf') in Hkn'. rewrite (Ks _ _ _ Hf' Hkn') in Eb.
    apply (xp_listed _ _ _ _ _ _ X id t i bid t' b Hf); [exists bid0; exact Hkn|exact Hi|exact Ni|exact Hkn'|exact Eb].
  - intros id bid t id' bid' t' w b b' Hf Hkn Hf' Hkn' Hc Hc' Eb Eb' Em. apply Hh in Hf. apply Hh in Hf'. apply (Hk id bid t Hf) in Hkn. apply (Hk id' bid' t' Hf') in Hkn'.
    rewrite (Ks _ _ _ Hf Hkn) in Eb. rewrite (Ks _ _ _ Hf' Hkn') in Eb'.
    apply (xp_methods _ _ _ _ _ _ X id bid t id' bid' t' w b b' Hf Hkn Hf' Hkn'); [apply (Kc id bid t w Hf Hkn Hc)|apply (Kc id' bid' t' w Hf' Hkn' Hc')|exact Eb|exact Eb'|exact Em].
  - intros x Ex. discriminate Ex.
  - exact Df.
  - eapply at_most_iff; [|exact (xp_bundles_fit _ _ _ _ _ _ X)]. cbv beta. intros w (id & bid & t & Hf & Hkn & Hc).
    apply Hh in Hf. apply (Hk id bid t Hf) in Hkn. exists id, bid, t. split; [exact Hf|]. split; [exact Hkn|]. apply (Kc id bid t w Hf Hkn Hc).
  - eapply at_most_iff; [|exact (xp_terminals_fit _ _ _ _ _ _ X)]. cbv beta. intros bid (x & oo & t & ty & no & Ex & _). discriminate Ex.
Qed.

Lemma reachable_calls {OG : OrdKey GlobalOut} H K s l : reachable H K s -> (forall c, In c l -> stock_call_ok H c) -> reachable H K (stock_after H K s l).
Proof.
  intros (l0 & Hl0 & ->) Hl. exists (l0 ++ l). split.
  - intros d Hd. apply in_app_or in Hd as [Hd|Hd]; auto.
  - unfold stock_after. rewrite fold_left_app. reflexivity.
Qed.
