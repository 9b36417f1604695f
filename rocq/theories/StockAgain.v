(** * The same consignment again: the whole stock *)
From Verif Require Import Base StM Core MergeModel MergeSpec MergeProofs ContainerModel ContainerSpec ContainerProofs.
From Verif Require Import PIndexModel PIndexSpec PIndexProofs StateModel StateSpec StateProofs.
From Verif Require Import StashModel StashSpec StashProofs StashAgain StockModel StockSpec StockProofs.
Local Open Scope N_scope.

(** ** Resolving secrets keeps what is well formed *)

Definition wb_all (Q : Bundle -> Prop) (wb : WitnessBundle) : Prop :=
  forall b, In b (anchored_bundles (wb_bundles wb)) -> Q b.

Lemma wb_reveal_all H (Q : Bundle -> Prop) bid seal wb : (forall b, Q b -> Q (reveal_bundle H seal b)) ->
  wb_all Q wb -> wb_all Q (snd (wb_reveal_seal H bid seal wb)) /\ wb_id (snd (wb_reveal_seal H bid seal wb)) = wb_id wb.
Proof.
  intros HQ Hw. destruct wb as [w [t|o|t o]]; unfold wb_all in *; cbn in *.
  - destruct (bundle_id H (cb_bundle t) =? bid); cbn; (split; [|reflexivity]); [|exact Hw].
    intros b [<-|[]]. apply HQ, Hw. auto.
  - destruct (bundle_id H (cb_bundle o) =? bid); cbn; (split; [|reflexivity]); [|exact Hw].
    intros b [<-|[]]. apply HQ, Hw. auto.
  - destruct (bundle_id H (cb_bundle t) =? bid); cbn; [split; [|reflexivity]|].
    + intros b [<-|[<-|[]]]; [apply HQ, Hw; auto|apply Hw; auto].
    + destruct (bundle_id H (cb_bundle o) =? bid); cbn; (split; [|reflexivity]); [|exact Hw].
      intros b [<-|[<-|[]]]; [apply Hw; auto|apply HQ, Hw; auto].
Qed.

Lemma resolve_all H s c c' (Q : Bundle -> Prop) : (forall seal b, Q b -> Q (reveal_bundle H seal b)) ->
  (forall wb, In wb (c_bundles c) -> wb_all Q wb) -> resolve_secrets H s c = Ok c' ->
  c' = set_bundles c (c_bundles c') /\ map wb_id (c_bundles c') = map wb_id (c_bundles c) /\
  (forall wb, In wb (c_bundles c') -> wb_all Q wb).
Proof.
  intros HQ Hc. unfold resolve_secrets, reveal_terminal_seals. set (g := fun acc wb => _).
  assert (T : forall l wb wb', wb_all Q wb ->
    rfold (fun wb p => let! s := (Ok (seal_secret H s (snd p)) : result StashError (option Seal)) in
       match s with Some seal => Ok (snd (wb_reveal_seal H (fst p) seal wb)) | None => Ok wb end) wb l = Ok wb' ->
    wb_all Q wb' /\ wb_id wb' = wb_id wb).
  { induction l as [|p l IH]; intros wb wb' Hw; cbn [rfold rbind]; intros E.
    - apply Ok_inj in E as <-. auto.
    - destruct (seal_secret H s (snd p)) as [seal|]; cbn [rbind] in E; [|apply IH; assumption].
      destruct (wb_reveal_all H Q (fst p) seal wb (HQ seal) Hw) as [Hw' Hi].
      apply IH in E as [E1 E2]; [|exact Hw']. split; [exact E1|]. rewrite E2. exact Hi. }
  assert (G : forall l acc bs, (forall wb, In wb l -> wb_all Q wb) -> (forall wb, In wb acc -> wb_all Q wb) ->
    rfold g acc l = Ok bs -> map wb_id bs = map wb_id acc ++ map wb_id l /\ forall wb, In wb bs -> wb_all Q wb).
  { induction l as [|wb l IH]; intros acc bs Hl Ha; cbn [rfold].
    - intros Er. apply Ok_inj in Er as <-. rewrite app_nil_r. auto.
    - unfold g at 1. destruct (rfold _ wb (c_terminals c)) as [wb'|e|] eqn:Ew; cbn [rbind]; try discriminate.
      apply T in Ew as [Ew Ei]; [|apply Hl; left; reflexivity].
      intros Er. apply IH in Er as (E1 & E2);
        [|intros x Hx; apply Hl; right; exact Hx|].
      + split; [|exact E2]. rewrite E1, map_app. cbn [map]. rewrite Ei, <- app_assoc. reflexivity.
      + intros x Hx. apply in_app_iff in Hx as [Hx|[<-|[]]]; auto. }
  destruct (rfold g [] (c_bundles c)) as [bs|e|] eqn:E; cbn [rbind]; intros Er; [|discriminate ..].
  apply Ok_inj in Er as <-. apply G in E as [E1 E2]; [|exact Hc|intros ? []].
  split; [reflexivity|]. split; [exact E1|exact E2].
Qed.

Lemma mmap_sorted {A B K} `{OrdKey K} (f : A -> B) (m : omap K A) : msorted m -> msorted (mmap f m).
Proof.
  intros Hs. induction Hs as [|[k v] m Hs IH Hf]; [constructor|]. cbn. constructor; [exact IH|].
  clear - Hf. induction Hf as [|[k' v'] m Hk Hf IH]; constructor; [exact Hk|exact IH].
Qed.

Lemma reveal_bundle_ok H seal b : bundle_ok H b -> bundle_ok H (reveal_bundle H seal b).
Proof.
  intros [(B1 & B2 & B3) B4]. split; [split; [|split]|].
  - intros k t. cbn [b_known reveal_bundle]. rewrite mget_mmap. destruct (mget k (b_known b)) as [o|] eqn:E; [|discriminate].
    intros Et. apply Some_inj in Et as <-. rewrite reveal_op_id. exact (B1 k o E).
  - apply mmap_sorted, B2.
  - intros k t. cbn [b_known reveal_bundle]. rewrite mget_mmap. destruct (mget k (b_known b)) as [o|] eqn:E; [|discriminate].
    intros Et. apply Some_inj in Et as <-. apply mmap_sorted. exact (B3 k o E).
  - cbn [b_known b_inputs reveal_bundle]. unfold len, mmap in *. rewrite map_length. exact B4.
Qed.

Definition bundle_sorted (b : Bundle) : Prop := forall o, In o (mvals (b_known b)) -> op_sorted o.

Lemma reveal_bundle_sorted H seal b : bundle_sorted b -> bundle_sorted (reveal_bundle H seal b).
Proof.
  intros Hb o Ho. cbn [b_known reveal_bundle] in Ho. unfold mvals, mmap in Ho. rewrite map_map in Ho.
  apply in_map_iff in Ho as ([k x] & <- & Hx). cbn [snd]. destruct (Hb x) as [H1 H2].
  { unfold mvals. apply in_map_iff. exists (k, x). auto. }
  split; [apply mmap_sorted, H1|exact H2].
Qed.

(** ** Well formed calls *)

(** What the types of the code and validation guarantee of what comes in: operations and
    bundles hold ordered maps, transitions are filed under their ids. *)
Definition stock_call_ok (H : Hashes) (c : StockCall) : Prop :=
  match c with
  | SkAccept c _ =>
      cons_ok H c /\ op_sorted (c_genesis c) /\ (forall e, In e (c_extensions c) -> op_sorted e) /\
      (forall wb o, In wb (c_bundles c) -> In o (wb_known_transitions wb) -> op_sorted o)
  | SkFascia f _ => forall p, In p (fascia_bundles f) -> bundle_ok H (snd p) /\ bundle_sorted (snd p)
  | _ => True
  end.

Lemma wb_all_sorted wb : wb_all bundle_sorted wb <-> forall o, In o (wb_known_transitions wb) -> op_sorted o.
Proof.
  unfold wb_all, bundle_sorted, wb_known_transitions. split.
  - intros Hw o Ho. apply in_flat_map in Ho as (b & Hb & Ho). eauto.
  - intros Hw b Hb o Ho. apply Hw. apply in_flat_map. eauto.
Qed.

Lemma resolve_ok H s c c' r : stock_call_ok H (SkAccept c r) -> resolve_secrets H s c = Ok c' ->
  stock_call_ok H (SkAccept c' r).
Proof.
  intros (Co & Sg & Se & Sb) E.
  destruct (resolve_all H s c c' bundle_sorted (reveal_bundle_sorted H)) as (Es & _ & Ss);
    [intros wb Hw; apply wb_all_sorted; intros o; apply Sb; exact Hw|exact E|].
  destruct (resolve_all H s c c' (bundle_ok H) (reveal_bundle_ok H)) as (_ & Em & So); [|exact E|].
  { intros wb Hw b Hb. rewrite anchored_bundles_map in Hb. apply in_map_iff in Hb as (p & <- & Hp).
    exact (co_bundles _ _ Co wb p Hw Hp). }
  pose proof Co as [C1 C2 C3 C4 C5 C6].
  assert (Ef : c_genesis c' = c_genesis c /\ c_extensions c' = c_extensions c /\ c_signatures c' = c_signatures c)
    by (rewrite Es; auto).
  destruct Ef as (Eg & Ee & Ei). cbn [stock_call_ok]. rewrite Eg, Ee. split; [|split; [exact Sg|split; [exact Se|]]].
  - constructor; rewrite ?Eg, ?Ee, ?Ei, ?Em; auto.
    intros wb p Hw Hp. apply (So wb Hw). rewrite anchored_bundles_map. apply in_map. exact Hp.
  - intros wb o Hw. apply wb_all_sorted, Ss, Hw.
Qed.

Section Again.
Context {OG : OrdKey GlobalOut}.

Lemma state_of_sorted H (l : list StockCall) (hist : list StateCall) :
  (forall c, In c l -> stock_call_ok H c) ->
  (forall x, In x hist -> exists c s0, In c l /\ state_of H c s0 x) -> history_sorted H hist.
Proof.
  intros Hl Hh x cid ow o Hx Hi. destruct (Hh x Hx) as (c & s0 & Hc & Hs). specialize (Hl c Hc).
  destruct c as [c r|f r|k|y|r after|]; cbn [state_of] in Hs; try contradiction.
  - destruct Hs as (c' & Er & ->). apply (resolve_ok _ _ _ _ _ Hl) in Er as (_ & Sg & Se & Sb).
    destruct Hi as (_ & [(_ & ->)|[(wb & Hw & Ho & _)|(w & Ho & _)]]); eauto.
  - destruct Hs as (p & Hp & ->). destruct Hi as (_ & Ho & _). exact (proj2 (Hl p Hp) o Ho).
  - subst x. contradiction.
Qed.

Lemma stash_of_ok H (l : list StockCall) (hist : list StashCall) :
  (forall c, In c l -> stock_call_ok H c) ->
  (forall x, In x hist -> exists c s0, In c l /\ stash_of H c s0 x) -> forall x, In x hist -> call_ok H x.
Proof.
  intros Hl Hh x Hx. destruct (Hh x Hx) as (c & s0 & Hc & Hs). specialize (Hl c Hc).
  destruct c as [c r|f r|k|y|r after|]; cbn [stash_of] in Hs; try contradiction; try (subst x; exact I).
  - destruct Hs as (c' & Er & ->). apply (resolve_ok _ _ _ _ _ Hl) in Er as (Co & _). exact Co.
  - destruct Hs as [->|(p & Hp & ->)]; [exact I|]. exact (proj1 (Hl p Hp)).
Qed.

(** ** The parts of an accepted consignment *)

Lemma accept_split H K c r s : accept_body H K c r s =
  match resolve_secrets H (sk_stash s) c with
  | Ok c' =>
      match state_call H (StConsignment c' r) (sk_state s) with
      | (st, Ok _) =>
          match index_call H (IxConsignment c') (sk_index s) with
          | (ix, Ok _) => let (sh, res) := consume_consignment H K c' (sk_stash s) in
                          ({| sk_stash := sh; sk_state := st; sk_index := ix |}, rmap_err SkStash res)
          | (ix, res) => ({| sk_stash := sk_stash s; sk_state := st; sk_index := ix |}, rmap_err SkIndex res)
          end
      | (st, res) => ({| sk_stash := sk_stash s; sk_state := st; sk_index := sk_index s |}, rmap_err SkState res)
      end
  | Err e => (s, Err (SkStash e))
  | Panic => (s, Panic)
  end.
Proof.
  unfold accept_body, bind, get, lift. cbn [fst snd].
  destruct (resolve_secrets H (sk_stash s) c) as [c'|e|]; cbn [rmap_err]; [|reflexivity ..].
  unfold on_state, on_index, on_stash. cbn [state_call index_call].
  destruct (update_from_consignment H c' r (sk_state s)) as [st [a|e|]]; cbn [rmap_err sk_stash sk_state sk_index]; [|reflexivity ..].
  destruct (pindex_consignment H c' (sk_index s)) as [ix [a'|e|]]; cbn [rmap_err sk_stash sk_state sk_index]; [|reflexivity ..].
  destruct (consume_consignment H K c' (sk_stash s)) as [sh [a''|e|]]; reflexivity.
Qed.

Lemma accept_ok H K c r s s1 : accept_body H K c r s = (s1, Ok tt) -> exists c',
  resolve_secrets H (sk_stash s) c = Ok c' /\
  state_call H (StConsignment c' r) (sk_state s) = (sk_state s1, Ok tt) /\
  index_call H (IxConsignment c') (sk_index s) = (sk_index s1, Ok tt) /\
  consume_consignment H K c' (sk_stash s) = (sk_stash s1, Ok tt).
Proof.
  rewrite accept_split. destruct (resolve_secrets H (sk_stash s) c) as [c'|e|] eqn:E0; [|discriminate ..].
  destruct (state_call H (StConsignment c' r) (sk_state s)) as [st [[]|e|]] eqn:E1; [|discriminate ..].
  destruct (index_call H (IxConsignment c') (sk_index s)) as [ix [[]|e|]] eqn:E2; [|discriminate ..].
  destruct (consume_consignment H K c' (sk_stash s)) as [sh [[]|e|]] eqn:E3; cbn; intros E; [|discriminate ..].
  injection E as <-. exists c'. cbn. auto.
Qed.

(** Accepting again, when some of the parts are already as after the call *)
Lemma accept_redo H K c r l s1 s' :
  let s := stock_after H K sk_empty l in
  collision_free H -> (forall d, In d (SkAccept c r :: l) -> stock_call_ok H d) ->
  accept_body H K c r s = (s1, Ok tt) -> has_room (sk_index s1) -> shas_room (sk_state s1) ->
  sk_stash s' = sk_stash s -> (sk_state s' = sk_state s \/ sk_state s' = sk_state s1) ->
  (sk_index s' = sk_index s \/ sk_index s' = sk_index s1) ->
  accept_body H K c r s' = (s1, Ok tt).
Proof.
  intros s HC Hok E Ri Rs Eh Et Ei. apply accept_ok in E as (c' & E0 & E1 & E2 & E3).
  destruct (after_moved H K l sk_empty) as ((li & Ii & Pi) & (ls & Is & Ps) & _). fold s in Ii, Is.
  assert (F1 : state_call H (StConsignment c' r) (sk_state s') = (sk_state s1, Ok tt)).
  { destruct Et as [->| ->]; [exact E1|]. eapply state_again with (history := ls).
    - exact HC.
    - apply (state_of_sorted H (SkAccept c r :: l)); [exact Hok|]. intros x [<-|Hx].
      + exists (SkAccept c r), s. split; [left; reflexivity|]. exists c'. auto.
      + destruct (Ps x Hx) as (d & s0 & Hd & Hs). exists d, s0. split; [right; exact Hd|exact Hs].
    - unfold state_after. change ms_empty with (sk_state sk_empty). rewrite <- Is. exact E1.
    - exact Rs. }
  assert (F2 : index_call H (IxConsignment c') (sk_index s') = (sk_index s1, Ok tt)).
  { destruct Ei as [->| ->]; [exact E2|]. eapply call_idempotent; [|exact E2|exact Ri].
    rewrite Ii. apply calls_wf. apply (after_wf H []). }
  rewrite accept_split, Eh, E0, F1, F2, E3. destruct s1; reflexivity.
Qed.

(** Accepting a consignment twice *)
Lemma accept_twice H K c r l s1 :
  let s := stock_after H K sk_empty l in
  collision_free H -> (forall d, In d (SkAccept c r :: l) -> stock_call_ok H d) ->
  accept_body H K c r s = (s1, Ok tt) -> has_room (sk_index s1) -> shas_room (sk_state s1) ->
  sigs_room (c_signatures c) (sk_stash s) -> sigs_room (c_signatures c) (sk_stash s1) ->
  exists s2 res, accept_body H K c r s1 = (s2, res) /\ sk_state s2 = sk_state s1 /\ sk_index s2 = sk_index s1 /\
    (res = Err (SkStash StashFull) \/ res = Ok tt /\ same_view (sk_stash s1) (sk_stash s2)).
Proof.
  intros s HC Hok E Ri Rs G0 G1. pose proof E as Eacc. apply accept_ok in E as (c' & E0 & E1 & E2 & E3).
  destruct (after_moved H K l sk_empty) as ((li & Ii & Pi) & (ls & Is & Ps) & (lh & Ih & Ph)). fold s in Ii, Is, Ih.
  assert (Er : resolve_secrets H (sk_stash s1) c = Ok c').
  { rewrite <- E0. unfold resolve_secrets, seal_secret.
    pose proof (same_seals_consignment H K c' (sk_stash s)) as Q. rewrite E3 in Q. cbn [fst] in Q. rewrite Q. reflexivity. }
  assert (F1 : state_call H (StConsignment c' r) (sk_state s1) = (sk_state s1, Ok tt)).
  { eapply state_again with (history := ls).
    - exact HC.
    - apply (state_of_sorted H (SkAccept c r :: l)); [exact Hok|]. intros x [<-|Hx].
      + exists (SkAccept c r), s. split; [left; reflexivity|]. exists c'. auto.
      + destruct (Ps x Hx) as (d & s0 & Hd & Hs). exists d, s0. split; [right; exact Hd|exact Hs].
    - unfold state_after. change ms_empty with (sk_state sk_empty). rewrite <- Is. exact E1.
    - exact Rs. }
  assert (F2 : index_call H (IxConsignment c') (sk_index s1) = (sk_index s1, Ok tt)).
  { eapply call_idempotent; [|exact E2|exact Ri]. rewrite Ii. apply calls_wf. apply (after_wf H []). }
  assert (Ok' : stock_call_ok H (SkAccept c' r)) by (eapply resolve_ok; [apply Hok; left; reflexivity|exact E0]).
  assert (Esg : c_signatures c' = c_signatures c).
  { destruct (resolve_all H (sk_stash s) c c' (fun _ => True)) as (Es & _); [auto|intros ? _ ? _; exact I|exact E0|]. rewrite Es. reflexivity. }
  destruct (consignment_again H K c' (sk_stash s) (sk_stash s1)) as (s2 & res & Ec & Ev).
  - exact HC.
  - rewrite Ih. apply good_after; [exact HC|]. apply (stash_of_ok H l); [intros d Hd; apply Hok; right; exact Hd|exact Ph].
  - rewrite Ih. apply sorted_after, sorted_empty.
  - exact (proj1 Ok').
  - rewrite Esg. exact G0.
  - rewrite Esg. exact G1.
  - exact E3.
  - rewrite accept_split, Er, F1, F2, Ec. do 2 eexists. split; [reflexivity|]. cbn. split; [reflexivity|]. split; [reflexivity|].
    destruct Ev as [->|[-> Ev]]; [left; reflexivity|right]. split; [reflexivity|exact Ev].
Qed.
End Again.
