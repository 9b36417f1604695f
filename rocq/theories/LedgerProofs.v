(** * What a stock was told: proofs for C73 *)
From Verif Require Import Base StM Core MergeModel MergeSpec MergeProofs ContainerModel ContainerSpec ContainerProofs PIndexModel PIndexSpec PIndexProofs.
From Verif Require Import StateModel StateSpec StateProofs StashModel StashSpec StashProofs StashAgain.
From Verif Require Import StockModel StockSpec StockProofs StockAgain FasciaProps StateProps SupplySpec SupplyProps LedgerSpec.
Local Open Scope N_scope.

(** ** Opening a consignment *)

Definition opens_in (H : Hashes) (seals : list Seal) (term : option N) (x : option Seal) : Prop :=
  match x with
  | Some s => term = Some (h_seal H s) /\ In s seals
  | None => forall s, In s seals -> term <> Some (h_seal H s)
  end.
Definition resolved (H : Hashes) (x : option Seal) (o : Operation) : Operation :=
  match x with Some s => reveal_op H s o | None => o end.
Definition resolved_b (H : Hashes) (x : option Seal) (b : Bundle) : Bundle :=
  match x with Some s => reveal_bundle H s b | None => b end.

Lemma resolved_id H x o : op_id H (resolved H x o) = op_id H o.
Proof. destruct x; [apply reveal_op_id|reflexivity]. Qed.
Lemma resolved_ty H x o : op_ty (resolved H x o) = op_ty o.
Proof. destruct x; reflexivity. Qed.
Lemma resolved_inputs H x o : op_inputs (resolved H x o) = op_inputs o.
Proof. destruct x; reflexivity. Qed.

Lemma opens_none H seals x : opens_in H seals None x <-> x = None.
Proof.
  split; [|intros ->; intros s _; discriminate]. destruct x as [s|]; [intros [E _]; discriminate|reflexivity].
Qed.

Lemma opens_unique H seals term x y : collision_free H -> opens_in H seals term x -> opens_in H seals term y -> x = y.
Proof.
  intros HC. destruct x as [x|], y as [y|]; cbn; auto.
  - intros [-> _] [E _]. apply Some_inj in E. f_equal. apply HC. exact E.
  - intros [E Hx] Hn. destruct (Hn x Hx E).
  - intros Hn [E Hx]. destruct (Hn y Hx E).
Qed.

Lemma opened_by H st term : exists x, opens_in H (st_seals st) term x /\
  x = match term with Some sec => seal_secret H st sec | None => None end.
Proof.
  destruct term as [sec|]; [|exists None; split; [apply opens_none|]; reflexivity].
  exists (seal_secret H st sec). split; [|reflexivity]. unfold seal_secret. destruct (find _ _) as [y|] eqn:Ef.
  - apply find_some in Ef as [Hi Ey]. apply N.eqb_eq in Ey. cbn. split; [congruence|exact Hi].
  - cbn. intros s Hs Es. apply (find_none _ _ Ef) in Hs. apply Some_inj in Es. subst sec. rewrite N.eqb_refl in Hs. discriminate.
Qed.

Definition opened_rel (H : Hashes) (seals : list Seal) (terms : omap N N) (b b' : Bundle) : Prop :=
  exists x, opens_in H seals (mget (bundle_id H b) terms) x /\ b' = resolved_b H x b.

Lemma resolved_rel H st c c' : collision_free H ->
  msorted (c_terminals c) -> (forall wb, In wb (c_bundles c) -> methods_ok (wb_bundles wb)) ->
  resolve_secrets H st c = Ok c' ->
  c' = set_bundles c (c_bundles c') /\
  Forall2 (fun wb wb' => wb_id wb' = wb_id wb /\
    Forall2 (opened_rel H (st_seals st) (c_terminals c)) (anchored_bundles (wb_bundles wb)) (anchored_bundles (wb_bundles wb')))
    (c_bundles c) (c_bundles c').
Proof.
  intros HC Mt Mo R. destruct (reveal_terminal_seals_ok H _ c c' HC Mt Mo R) as [Es F]. split; [exact Es|].
  clear Es R Mo. induction F as [|w w' ws ws' [W1 W2] F IH]; constructor; [|exact IH]. clear IH F.
  split; [unfold wb_id; rewrite W1; reflexivity|].
  assert (Rv : forall t t', terminal_revealed H (fun secret => Base.Ok (seal_secret H st secret) : result StashError _) (c_terminals c) t t' ->
             opened_rel H (st_seals st) (c_terminals c) t t').
  { intros t t' T. unfold terminal_revealed in T. unfold opened_rel.
    destruct (opened_by H st (mget (bundle_id H t) (c_terminals c))) as (x & Ho & Ex). exists x. split; [exact Ho|].
    destruct (mget _ _) as [sec|]; [|subst x; exact T]. subst x. destruct (seal_secret H st sec); exact T. }
  destruct (wb_bundles w), (wb_bundles w'); cbn [anchored_rel] in W2; try contradiction; unfold client_rel in W2; cbn.
  - repeat constructor. apply Rv, W2.
  - repeat constructor. apply Rv, W2.
  - destruct W2 as ((_ & _ & A) & (_ & _ & B)). constructor; [apply Rv, A|]. constructor; [apply Rv, B|constructor].
Qed.

Lemma mvals_resolved H x b o' : In o' (mvals (b_known (resolved_b H x b))) <->
  exists o, In o (mvals (b_known b)) /\ o' = resolved H x o.
Proof.
  destruct x as [s|]; cbn [resolved_b resolved].
  - cbn [b_known reveal_bundle]. unfold mvals, mmap. rewrite map_map. cbn [snd]. rewrite in_map_iff. split.
    + intros ([k o] & <- & Hi). exists o. split; [|reflexivity]. apply in_map_iff. exists (k, o). auto.
    + intros (o & Ho & ->). apply in_map_iff in Ho as ([k o1] & <- & Hi). exists (k, o1). auto.
  - split; [intros Hi; exists o'; auto|intros (o & Ho & ->); exact Ho].
Qed.

Lemma Forall2_l {A B} (R : A -> B -> Prop) l l' a : Forall2 R l l' -> In a l -> exists b, In b l' /\ R a b.
Proof.
  intros F. induction F as [|x y l l' Hr F IH]; intros []; [subst; exists y; split; [left; reflexivity|exact Hr]|].
  destruct IH as (b & Hb & Hx); [assumption|]. exists b. split; [right; exact Hb|exact Hx].
Qed.
Lemma Forall2_r {A B} (R : A -> B -> Prop) l l' b : Forall2 R l l' -> In b l' -> exists a, In a l /\ R a b.
Proof.
  intros F. induction F as [|x y l l' Hr F IH]; intros []; [subst; exists x; split; [left; reflexivity|exact Hr]|].
  destruct IH as (a & Ha & Hx); [assumption|]. exists a. split; [right; exact Ha|exact Hx].
Qed.

Section Accept.
Context (H : Hashes) (HC : collision_free H) (seals : list Seal) (terms : omap N N).

Definition wrel (wb wb' : WitnessBundle) : Prop :=
  wb_id wb' = wb_id wb /\
  Forall2 (opened_rel H seals terms) (anchored_bundles (wb_bundles wb)) (anchored_bundles (wb_bundles wb')).

Lemma known_rel wb wb' o' : wrel wb wb' ->
  (In o' (wb_known_transitions wb') <->
   exists b o x, In b (anchored_bundles (wb_bundles wb)) /\ In o (mvals (b_known b)) /\
     opens_in H seals (mget (bundle_id H b) terms) x /\ o' = resolved H x o).
Proof.
  intros [_ F]. unfold wb_known_transitions. rewrite in_flat_map. split.
  - intros (b' & Hb' & Ho'). destruct (Forall2_r _ _ _ _ F Hb') as (b & Hb & x & Hx & ->).
    apply mvals_resolved in Ho' as (o & Ho & ->). exists b, o, x. auto.
  - intros (b & o & x & Hb & Ho & Hx & ->). destruct (Forall2_l _ _ _ _ F Hb) as (b' & Hb' & y & Hy & ->).
    exists (resolved_b H y b). split; [exact Hb'|]. apply mvals_resolved. exists o. split; [exact Ho|].
    rewrite (opens_unique _ _ _ _ _ HC Hx Hy). reflexivity.
Qed.

Lemma opens_some term : exists x, opens_in H seals term x.
Proof.
  destruct (opened_by H (with_seals seals st_empty) term) as (x & Hx & _). exists x. exact Hx.
Qed.

Lemma known_some wb o : In o (wb_known_transitions wb) <->
  exists b x, In b (anchored_bundles (wb_bundles wb)) /\ In o (mvals (b_known b)) /\ opens_in H seals (mget (bundle_id H b) terms) x.
Proof.
  unfold wb_known_transitions. rewrite in_flat_map. split.
  - intros (b & Hb & Ho). destruct (opens_some (mget (bundle_id H b) terms)) as (x & Hx). exists b, x. auto.
  - intros (b & x & Hb & Ho & _). exists b. auto.
Qed.

Lemma spends_rel wb wb' opid : wrel wb wb' ->
  ((exists t, In t (wb_known_transitions wb') /\ spends_op t opid) <->
   (exists t, In t (wb_known_transitions wb) /\ spends_op t opid)).
Proof.
  intros W. unfold spends_op. split.
  - intros (t' & Ht & i & Hi & Ei). apply (known_rel _ _ _ W) in Ht as (b & o & x & Hb & Ho & Hx & ->).
    rewrite resolved_inputs in Hi. exists o. split; [apply known_some; eauto|eauto].
  - intros (t & Ht & i & Hi & Ei). apply known_some in Ht as (b & x & Hb & Ho & Hx). exists (resolved H x t).
    split; [apply (known_rel _ _ _ W); exists b, t, x; auto|]. exists i. rewrite resolved_inputs. auto.
Qed.

Lemma first_rel c c' opid w : Forall2 wrel (c_bundles c) (c_bundles c') -> (first_spent c' opid w <-> first_spent c opid w).
Proof.
  intros F. unfold first_spent. split.
  - intros (bf & wb' & af & E & Ei & Hs & Hn). rewrite E in F. apply Forall2_app_inv_r in F as (bf0 & l0 & F1 & F2 & E0).
    inversion F2 as [|wb x af0 y Hr F3]; subst. exists bf0, wb, af0. split; [exact E0|]. split; [symmetry; apply Hr|].
    split; [apply (spends_rel _ _ _ Hr), Hs|]. intros wb0 t Hw Ht Hsp. destruct (Forall2_l _ _ _ _ F1 Hw) as (wb1 & Hw1 & Hr1).
    destruct (proj2 (spends_rel _ _ opid Hr1)) as (t1 & Ht1 & Hsp1); [eauto|]. exact (Hn wb1 t1 Hw1 Ht1 Hsp1).
  - intros (bf & wb & af & E & Ei & Hs & Hn). rewrite E in F. apply Forall2_app_inv_l in F as (bf0 & l0 & F1 & F2 & E0).
    inversion F2 as [|x wb' y af0 Hr F3]; subst. exists bf0, wb', af0. split; [exact E0|]. split; [apply Hr|].
    split; [apply (spends_rel _ _ _ Hr), Hs|]. intros wb0 t Hw Ht Hsp. destruct (Forall2_r _ _ _ _ F1 Hw) as (wb1 & Hw1 & Hr1).
    destruct (proj1 (spends_rel _ _ opid Hr1)) as (t1 & Ht1 & Hsp1); [eauto|]. exact (Hn wb1 t1 Hw1 Ht1 Hsp1).
Qed.

Lemma nonempty_rel wb wb' : wrel wb wb' -> (wb_known_transitions wb' <> [] <-> wb_known_transitions wb <> []).
Proof.
  intros W.
  assert (N1 : forall A (l : list A), l <> [] <-> exists x, In x l).
  { intros A l. destruct l as [|x l]; [split; [congruence|intros (x & [])]|split; [intros _; exists x; left; reflexivity|discriminate]]. }
  rewrite !N1. split.
  - intros (o' & Ho). apply (known_rel _ _ _ W) in Ho as (b & o & x & Hb & Ho & Hx & _). exists o. apply known_some. eauto.
  - intros (o & Ho). apply known_some in Ho as (b & x & Hb & Ho & Hx). exists (resolved H x o). apply (known_rel _ _ _ W). eauto 10.
Qed.
End Accept.

(** ** One call *)

Lemma neg_len {A} (l : list A) : negb (len l =? 0) = true <-> l <> [].
Proof.
  destruct l; cbn.
  - split; [discriminate|congruence].
  - split; [discriminate|]. intros _. unfold len. cbn [length]. rewrite Nat2N.inj_succ. destruct (N.succ _) eqn:E; [|reflexivity]. lia.
Qed.

Section Step.
Context {OG : OrdKey GlobalOut}.
Context (H : Hashes) (HC : collision_free H) (K : Merkle).

Definition steps (call : StockCall) (s s' : Stock) (lc : list StateCall) : Prop :=
  sk_state s' = state_calls H lc (sk_state s) /\ sall_succeed H (sk_state s) lc /\
  (forall cid ow o', (exists sc, In sc lc /\ imports H sc cid ow o') <->
     exists o term x, shown H call cid ow o term /\ opens_in H (st_seals (sk_stash s)) term x /\ o' = resolved H x o) /\
  (forall P : Operation -> SchemaRec -> Prop,
     (exists c r, In (StConsignment c r) lc /\ P (c_genesis c) (c_schema c)) <->
     (exists c r, call = SkAccept c r /\ P (c_genesis c) (c_schema c))) /\
  (forall w, mget w (ms_witnesses (sk_state s')) = status_after w (mget w (ms_witnesses (sk_state s))) call) /\
  (forall x, In x (st_seals (sk_stash s')) <-> In x (st_seals (sk_stash s)) \/ call = SkSeal x).

Lemma ssucc_ok s c s' : state_call H c s = (s', Ok tt) -> ssucceeds H s c.
Proof. intros E. exists s'. exact E. Qed.

Lemma asks_accept c r w : asks (SkAccept c r) w = true <-> touches (StConsignment c r) w.
Proof.
  cbn [asks touches]. rewrite existsb_exists. split.
  - intros (wb & Hw & E). apply andb_true_iff in E as [E1 E2]. apply keqb_true in E1. apply neg_len in E2. eauto.
  - intros (wb & Hw & E2 & E1). exists wb. split; [exact Hw|]. apply andb_true_iff. split; [rewrite E1; apply keqb_refl|apply neg_len, E2].
Qed.

Lemma step_accept c r s s' : ledger_call_ok H (SkAccept c r) -> accept_body H K c r s = (s', Ok tt) ->
  exists lc, steps (SkAccept c r) s s' lc.
Proof.
  intros (Ok & Mt & Mo) E. apply accept_ok in E as (c' & Er & Es & _ & Eh).
  destruct (resolved_rel H _ c c' HC Mt Mo Er) as [Ec F].
  assert (Eg : c_genesis c' = c_genesis c) by (rewrite Ec; reflexivity).
  assert (Ee : c_extensions c' = c_extensions c) by (rewrite Ec; reflexivity).
  assert (Esc : c_schema c' = c_schema c) by (rewrite Ec; reflexivity).
  exists [StConsignment c' r]. split; [unfold state_calls; cbn [fold_left]; rewrite Es; reflexivity|].
  split; [split; [exact (ssucc_ok _ _ _ Es)|exact Logic.I]|]. split; [|split; [|split]].
  - intros cid ow o'. split.
    + intros (sc & [<-|[]] & Hcid & Hi). rewrite Eg in Hcid, Hi. cbn [shown].
      destruct Hi as [(-> & ->)|[(wb' & Hw & Ho & ->)|(w & Ho & Hf & ->)]].
      * exists (c_genesis c), None, None. split; [split; [exact Hcid|auto]|]. split; [apply opens_none|]; reflexivity.
      * destruct (Forall2_r _ _ _ _ F Hw) as (wb & Hwb & W). destruct (proj1 (known_rel H HC _ _ _ _ _ W) Ho) as (b & o & x & Hb & Hob & Hx & ->).
        exists o, (mget (bundle_id H b) (c_terminals c)), x. split; [|auto]. split; [exact Hcid|]. right. left.
        exists wb, b. rewrite (proj1 W), resolved_ty. auto 10.
      * rewrite Ee in Ho. apply (first_rel H HC _ _ c c' _ _ F) in Hf. exists o', None, None.
        split; [|split; [apply opens_none|]; reflexivity]. split; [exact Hcid|]. right. right. exists w. auto 10.
    + intros (o & term & x & (Hcid & Hi) & Hx & ->). exists (StConsignment c' r). split; [left; reflexivity|].
      cbn [imports]. rewrite Eg. split; [exact Hcid|].
      destruct Hi as [(-> & -> & ->)|[(wb & b & Hw & Hb & Ho & -> & ->)|(w & Ho & Hf & -> & ->)]].
      * apply opens_none in Hx. subst x. left. auto.
      * right. left. destruct (Forall2_l _ _ _ _ F Hw) as (wb' & Hwb & W). exists wb'. split; [exact Hwb|].
        rewrite (proj1 W), resolved_ty. split; [|reflexivity]. apply (known_rel H HC _ _ _ _ _ W). eauto 10.
      * apply opens_none in Hx. subst x. right. right. exists w. rewrite Ee. split; [exact Ho|]. split; [|reflexivity].
        apply (first_rel H HC _ _ c c' _ _ F), Hf.
  - intros P. split.
    + intros (c0 & r0 & [E0|[]] & HP). injection E0 as <- <-. exists c, r. rewrite Eg, Esc in HP. auto.
    + intros (c0 & r0 & E0 & HP). injection E0 as <- <-. exists c', r. rewrite Eg, Esc. split; [left; reflexivity|exact HP].
  - intros w. cbn [status_after].
    destruct (C27_import_status OG H (StConsignment c' r) r _ _ _ (or_introl (ex_intro _ c' eq_refl)) Es) as [U T].
    assert (Ta : touches (StConsignment c' r) w <-> touches (StConsignment c r) w).
    { cbn [touches]. split.
      - intros (wb' & Hw & Hn & <-). destruct (Forall2_r _ _ _ _ F Hw) as (wb & Hwb & W). exists wb. split; [exact Hwb|].
        split; [apply (nonempty_rel H HC _ _ _ _ W), Hn|symmetry; apply W].
      - intros (wb & Hw & Hn & <-). destruct (Forall2_l _ _ _ _ F Hw) as (wb' & Hwb & W). exists wb'. split; [exact Hwb|].
        split; [apply (nonempty_rel H HC _ _ _ _ W), Hn|apply W]. }
    rewrite <- (asks_accept c r) in Ta. destruct (asks (SkAccept c r) w).
    + apply (T eq_refl), Ta. reflexivity.
    + apply U. intros Ht. apply Ta in Ht. discriminate.
  - intros x. pose proof (same_seals_consignment H K c' (sk_stash s)) as Sl. rewrite Eh in Sl. cbn [fst] in Sl. rewrite Sl.
    split; [auto|intros [Hx|Hx]; [exact Hx|discriminate]].
Qed.

Lemma bundles_status w0 r w l : forall s, sall_succeed H s (map (st_of w0 r) l) ->
  mget w (ms_witnesses (state_calls H (map (st_of w0 r) l) s)) =
  if keqb w0 w && existsb (fun p => negb (len (b_known (snd p)) =? 0)) l then r w else mget w (ms_witnesses s).
Proof.
  induction l as [|p l IH]; intros s; cbn [map sall_succeed state_calls fold_left existsb].
  - intros _. rewrite andb_false_r. reflexivity.
  - intros [(s1 & E1) Hs]. rewrite E1 in Hs |- *. cbn [fst] in Hs |- *. change (fold_left _ _ s1) with (state_calls H (map (st_of w0 r) l) s1).
    rewrite (IH s1 Hs). destruct (C27_import_status OG H _ r _ _ _ (or_intror (ex_intro _ (fst p) (ex_intro _ (snd p) (ex_intro _ w0 eq_refl)))) E1) as [U T].
    cbn [st_of touches] in U, T. specialize (T eq_refl).
    destruct (keqb w0 w) eqn:Ek; cbn [andb].
    + apply keqb_true in Ek. subst w0. destruct (negb (len (b_known (snd p)) =? 0)) eqn:En; cbn [orb].
      * destruct (existsb _ l); [reflexivity|]. apply T. split; [apply neg_len, En|reflexivity].
      * destruct (existsb _ l); [reflexivity|]. apply U. intros [Hn _]. apply neg_len in Hn. congruence.
    + apply U. intros [_ ->]. rewrite keqb_refl in Ek. discriminate.
Qed.

Lemma seals_bundles l : forall t, st_seals (stash_after H K t (map sh_of l)) = st_seals t.
Proof.
  induction l as [|p l IH]; intros t; [reflexivity|]. cbn [map stash_after fold_left]. change (fold_left _ _ _) with
    (stash_after H K (fst (stash_call H K (sh_of p) t)) (map sh_of l)). rewrite IH. cbn [stash_call sh_of].
  apply same_seals_bind; [apply same_seals_bundle|reflexivity].
Qed.

Lemma step_fascia f r s s' : ledger_call_ok H (SkFascia f r) -> fascia_body H f r s = (s', Ok tt) ->
  exists lc, steps (SkFascia f r) s s' lc.
Proof.
  intros _ E. apply (fascia_ok H K) in E. cbv zeta in E. destruct E as (_ & _ & (As & Es) & (_ & Eh)).
  exists (map (st_of (fascia_witness_id f) r) (fascia_bundles f)). split; [exact Es|]. split; [exact As|]. split; [|split; [|split]].
  - intros cid ow o'. split.
    + intros (sc & Hsc & Hi). apply in_map_iff in Hsc as ([i b] & <- & Hp). destruct Hi as (-> & Ho & ->). cbn [fst snd] in *.
      exists o', None, None. split; [exists b; auto|]. split; [apply opens_none|]; reflexivity.
    + intros (o & term & x & (b & Hb & Ho & -> & ->) & Hx & ->). apply opens_none in Hx. subst x. cbn [resolved].
      exists (st_of (fascia_witness_id f) r (cid, b)). split; [apply in_map, Hb|]. cbn. auto.
  - intros P. split.
    + intros (c0 & r0 & Hi & _). apply in_map_iff in Hi as (p & E0 & _). discriminate.
    + intros (c0 & r0 & E0 & _). discriminate.
  - intros w. rewrite Es. cbn [status_after asks]. apply bundles_status, As.
  - intros x. rewrite Eh. cbn [stash_after fold_left]. change (fold_left _ ?l ?t) with (stash_after H K t l).
    rewrite seals_bundles. cbn [stash_call].
    assert (Q : st_seals (fst ((consume_witness (fa_seal f) ;;! ret tt) (sk_stash s))) = st_seals (sk_stash s)).
    { apply same_seals_bind; [apply same_seals_witness|reflexivity]. }
    rewrite Q. split; [auto|intros [Hx|Hx]; [exact Hx|discriminate]].
Qed.

Lemma step_none call s s' : (forall c r, call <> SkAccept c r) -> (forall cid ow o term, ~ shown H call cid ow o term) ->
  (forall w old, status_after w old call = old) -> (forall x, call <> SkSeal x) ->
  sk_state s' = sk_state s -> st_seals (sk_stash s') = st_seals (sk_stash s) -> exists lc, steps call s s' lc.
Proof.
  intros N1 N2 N3 N4 E1 E2. exists []. split; [exact E1|]. split; [exact Logic.I|]. split; [|split; [|split]].
  - intros cid ow o'. split; [intros (sc & [] & _)|intros (o & term & x & Hs & _); destruct (N2 _ _ _ _ Hs)].
  - intros P. split; [intros (c0 & r0 & [] & _)|intros (c0 & r0 & E0 & _); destruct (N1 _ _ E0)].
  - intros w. rewrite E1, N3. reflexivity.
  - intros x. rewrite E2. split; [auto|intros [Hx|Hx]; [exact Hx|destruct (N4 _ Hx)]].
Qed.

Lemma step_call call s : ledger_call_ok H call -> snd (stock_body H K call s) = Ok tt ->
  exists lc, steps call s (fst (stock_body H K call s)) lc.
Proof.
  intros Ok E. destruct (stock_body H K call s) as [s' e] eqn:Eb. cbn [fst snd] in *. subst e.
  destruct call as [c r|f r|k|x|r after|]; cbn [stock_body] in Eb.
  - exact (step_accept c r s s' Ok Eb).
  - exact (step_fascia f r s s' Ok Eb).
  - unfold on_stash in Eb. destruct (consume_kit k (sk_stash s)) as [t e] eqn:Ek. injection Eb as <- _.
    apply step_none; try discriminate; try reflexivity; [intros ? ? ? ? []|]. cbn [sk_stash].
    pose proof (same_seals_kit k (sk_stash s)) as Sl. rewrite Ek in Sl. exact Sl.
  - unfold bind, on_stash in Eb. rewrite StashProps.C50_store in Eb.
    destruct (len (st_seals (sk_stash s)) <? U24MAX); cbn [rmap_err] in Eb; [|discriminate]. injection Eb as <-.
    exists []. split; [reflexivity|]. split; [exact Logic.I|]. split; [|split; [|split]].
    + intros cid ow o'. split; [intros (sc & [] & _)|intros (o & term & y & [] & _)].
    + intros P. split; [intros (c0 & r0 & [] & _)|intros (c0 & r0 & E0 & _); discriminate].
    + intros w. reflexivity.
    + intros y. cbn [sk_stash st_seals with_seals]. rewrite In_sinsert. split.
      * intros [->|Hy]; auto.
      * intros [Hy|Hy]; [auto|injection Hy as ->; auto].
  - unfold bind, on_state in Eb. destruct (update_witnesses r after (sk_state s)) as [t e] eqn:Eu.
    destruct e as [u|e|]; cbn [rmap_err] in Eb; try discriminate. injection Eb as <-.
    assert (Et : t = fst (update_witnesses r after (sk_state s))) by (rewrite Eu; reflexivity).
    exists [StUpdate r after]. unfold steps. cbn [sk_state sk_stash state_calls fold_left]. cbn [state_call]. unfold bind. rewrite Eu.
    split; [reflexivity|]. split; [split; [eexists; cbn [state_call]; unfold bind; rewrite Eu; reflexivity|exact Logic.I]|].
    split; [|split; [|split]].
    + intros cid ow o'. split; [intros (sc & [<-|[]] & [])|intros (o & term & y & [] & _)].
    + intros P. split; [intros (c0 & r0 & [E0|[]] & _)|intros (c0 & r0 & E0 & _)]; discriminate.
    + intros w. rewrite Et, update_witnesses_get. unfold new_status, skip_witness. cbn [status_after].
      destruct (mget w (ms_witnesses (sk_state s))) as [[]|]; cbn [option_map]; try reflexivity; try (destruct (r w); reflexivity).
      match goal with |- context [?h <? N.max 1 after] => destruct (h <? N.max 1 after) end; [reflexivity|]. destruct (r w); reflexivity.
    + intros y. split; [auto|intros [Hy|Hy]; [exact Hy|discriminate]].
  - injection Eb as <-. apply step_none; try discriminate; try reflexivity. intros ? ? ? ? [].
Qed.
End Step.

(** ** All calls *)

Lemma reveal_seen H x b seal st : reveal_assign H x b = Revealed seal st <-> seen_as H (Some x) b seal st.
Proof.
  unfold seen_as. destruct b as [s r|s r|s r|s r]; cbn [reveal_assign].
  - destruct (s =? h_seal H x) eqn:E; (split; [discriminate|]; intros [Hx|[_ Hx]]; discriminate).
  - split; [discriminate|]. intros [Hx|[_ Hx]]; discriminate.
  - destruct (s =? h_seal H x) eqn:E.
    + apply N.eqb_eq in E. subst s. split.
      * intros Hx. injection Hx as <- <-. auto.
      * intros [Hx|[Hx Hy]]; [discriminate|]. injection Hx as <-. injection Hy as <-. reflexivity.
    + split; [discriminate|]. intros [Hx|[Hx Hy]]; [discriminate|]. injection Hx as <-. injection Hy as Ey _.
      apply N.eqb_neq in E. contradiction.
  - split; [auto|]. intros [Hx|[_ Hx]]; [exact Hx|discriminate].
Qed.

Definition opened (H : Hashes) (x : option Seal) (b : Assign) : Assign :=
  match x with Some s => reveal_assign H s b | None => b end.

Lemma opened_seen H x b seal st : opened H x b = Revealed seal st <-> seen_as H x b seal st.
Proof.
  destruct x as [x|]; [apply reveal_seen|]. unfold seen_as. cbn. split; [auto|intros [Hx|[Hx _]]; [exact Hx|discriminate]].
Qed.

Definition opened_ta (H : Hashes) (x : option Seal) (ta : TypedAssigns) : TypedAssigns :=
  match x with Some s => reveal_typed H s ta | None => ta end.

Lemma opened_kind H x ta : ta_kind (opened_ta H x ta) = ta_kind ta.
Proof. destruct x; reflexivity. Qed.
Lemma opened_list H x ta : ta_list (opened_ta H x ta) = map (opened H x) (ta_list ta).
Proof. destruct x; [reflexivity|]. cbn. rewrite map_id. reflexivity. Qed.

Lemma resolved_assigns H x o : op_assigns (resolved H x o) = mmap (opened_ta H x) (op_assigns o).
Proof.
  destruct x; [reflexivity|]. cbn. unfold mmap. symmetry. erewrite map_ext; [apply map_id|]. intros [k v]. reflexivity.
Qed.

Lemma resolved_In H x o ty ta' : In (ty, ta') (op_assigns (resolved H x o)) <->
  exists ta, In (ty, ta) (op_assigns o) /\ ta' = opened_ta H x ta.
Proof.
  rewrite resolved_assigns. unfold mmap. rewrite in_map_iff. split.
  - intros ([k ta] & E & Hi). cbn in E. assert (k = ty /\ ta' = opened_ta H x ta) as [-> ->] by (split; congruence). eauto.
  - intros (ta & Hi & ->). exists (ty, ta). auto.
Qed.

Lemma reveals_gives H x o ow k a : reveals H (resolved H x o) ow k a <-> gives H o x ow k a.
Proof.
  unfold reveals, gives. split.
  - intros (ty & ta' & no & seal & st & Hta & Hk & Hn & Hs & Ho & Hst & Hw).
    apply resolved_In in Hta as (ta & Hta & ->). rewrite opened_kind in Hk. rewrite opened_list, nth_error_map in Hn.
    destruct (nth_error (ta_list ta) no) as [b|] eqn:Eb; [|discriminate]. apply Some_inj, opened_seen in Hn.
    rewrite resolved_id in Ho. exists ty, ta, no, b, seal, st. auto 10.
  - intros (ty & ta & no & b & seal & st & Hta & Hk & Hn & Hx & Hs & Ho & Hst & Hw).
    exists ty, (opened_ta H x ta), no, seal, st. split; [apply resolved_In; eauto|]. rewrite opened_kind, opened_list, nth_error_map, Hn.
    split; [exact Hk|]. split; [cbn; f_equal; apply opened_seen, Hx|]. rewrite resolved_id. auto.
Qed.

Lemma shows_resolved H x o ow ty go d : shows H (resolved H x o) ow ty go d <-> shows H o ow ty go d.
Proof. unfold shows. rewrite resolved_id. destruct x; cbn; tauto. Qed.

Lemma resolved_sorted H x o : op_sorted o -> op_sorted (resolved H x o).
Proof. intros [A B]. split; [rewrite resolved_assigns; apply mmap_sorted, A|destruct x; exact B]. Qed.

Section Ledger.
Context {OG : OrdKey GlobalOut}.
Context (H : Hashes) (HC : collision_free H) (K : Merkle).

Lemma told_snoc l call cid ow o x : told H (l ++ [call]) cid ow o x <->
  told H l cid ow o x \/ exists term, shown H call cid ow o term /\ opens H l term x.
Proof.
  unfold told. split.
  - intros (bf & c & af & term & E & Hs & Ho). destruct af as [|z af] using rev_ind.
    + apply app_inj_tail in E as [-> ->]. right. eauto.
    + clear IHaf. left. rewrite app_comm_cons, app_assoc in E. apply app_inj_tail in E as [-> _]. eauto 10.
  - intros [(bf & c & af & term & -> & Hs & Ho)|(term & Hs & Ho)].
    + exists bf, c, (af ++ [call]), term. rewrite <- app_assoc. auto.
    + exists l, call, [], term. auto.
Qed.

Lemma all_succeed_snoc l call s : all_calls_succeed H K s (l ++ [call]) <->
  all_calls_succeed H K s l /\ snd (stock_body H K call (stock_after H K s l)) = Ok tt.
Proof.
  revert s. induction l as [|c l IH]; intros s; cbn [app all_calls_succeed].
  - unfold stock_after. cbn. tauto.
  - rewrite IH. unfold stock_after. cbn [fold_left]. tauto.
Qed.

Lemma sall_app s l l' : sall_succeed H s (l ++ l') <-> sall_succeed H s l /\ sall_succeed H (state_calls H l s) l'.
Proof.
  revert s. induction l as [|c l IH]; intros s; cbn [app sall_succeed].
  - unfold state_calls. cbn. tauto.
  - rewrite IH. unfold state_calls. cbn [fold_left]. tauto.
Qed.

Definition ledger_of (l : list StockCall) (ls : list StateCall) : Prop :=
  let s := stock_after H K sk_empty l in
  sk_state s = state_after H ls /\ sall_succeed H ms_empty ls /\
  (forall cid ow o', (exists sc, In sc ls /\ imports H sc cid ow o') <->
     exists o x, told H l cid ow o x /\ o' = resolved H x o) /\
  (forall P : Operation -> SchemaRec -> Prop,
     (exists c r, In (StConsignment c r) ls /\ P (c_genesis c) (c_schema c)) <->
     (exists c r, In (SkAccept c r) l /\ P (c_genesis c) (c_schema c))) /\
  (forall w, mget w (ms_witnesses (sk_state s)) = status l w) /\
  (forall x, In x (st_seals (sk_stash s)) <-> In (SkSeal x) l).

Lemma ledger_made l : (forall c, In c l -> ledger_call_ok H c) -> all_calls_succeed H K sk_empty l ->
  exists ls, ledger_of l ls.
Proof.
  induction l as [|call l IH] using rev_ind; intros Hok Hs.
  - exists []. split; [reflexivity|]. split; [exact Logic.I|]. split; [|split; [|split]].
    + intros cid ow o'. split; [intros (sc & [] & _)|intros (o & x & (bf & c & af & term & E & _) & _); destruct bf; discriminate].
    + intros P. split; intros (c & r & [] & _).
    + reflexivity.
    + intros x. split; intros [].
  - apply all_succeed_snoc in Hs as [Hs E].
    destruct IH as (ls & L1 & L2 & L3 & L4 & L5 & L6); [intros c Hc; apply Hok, in_or_app; auto|exact Hs|].
    assert (Ho : ledger_call_ok H call) by (apply Hok, in_or_app; right; left; reflexivity).
    destruct (step_call H HC K call _ Ho E) as (lc & S1 & S2 & S3 & S4 & S5 & S6).
    exists (ls ++ lc). unfold ledger_of.
    replace (stock_after H K sk_empty (l ++ [call])) with (fst (stock_body H K call (stock_after H K sk_empty l)))
      by (unfold stock_after; rewrite fold_left_app; reflexivity).
    set (s := stock_after H K sk_empty l) in *. set (s' := fst (stock_body H K call s)) in *.
    cbv zeta. split; [|split; [|split; [|split; [|split]]]].
    + rewrite S1, L1. unfold state_after. rewrite <- state_calls_app. reflexivity.
    + apply sall_app. split; [exact L2|]. change (state_calls H ls ms_empty) with (state_after H ls). rewrite <- L1. exact S2.
    + intros cid ow o'. split.
      * intros (sc & Hsc & Hi). apply in_app_or in Hsc as [Hsc|Hsc].
        -- destruct (proj1 (L3 cid ow o')) as (o & x & Ht & ->); [eauto|]. exists o, x. split; [apply told_snoc; auto|reflexivity].
        -- destruct (proj1 (S3 cid ow o')) as (o & term & x & Ht & Hx & ->); [eauto|]. exists o, x. split; [|reflexivity].
           apply told_snoc. right. exists term. split; [exact Ht|]. destruct x as [x|]; cbn [opens opens_in] in *.
           ++ destruct Hx as [-> Hx]. split; [reflexivity|apply L6, Hx].
           ++ intros y Hy. apply Hx, L6, Hy.
      * intros (o & x & Ht & ->). apply told_snoc in Ht as [Ht|(term & Ht & Hx)].
        -- destruct (proj2 (L3 cid ow (resolved H x o))) as (sc & Hsc & Hi); [eauto|]. exists sc. split; [apply in_or_app; auto|exact Hi].
        -- destruct (proj2 (S3 cid ow (resolved H x o))) as (sc & Hsc & Hi).
           { exists o, term, x. split; [exact Ht|]. split; [|reflexivity]. destruct x as [x|]; cbn [opens opens_in] in *.
             - destruct Hx as [-> Hx]. split; [reflexivity|apply L6, Hx].
             - intros y Hy. apply Hx, L6, Hy. }
           exists sc. split; [apply in_or_app; auto|exact Hi].
    + intros P. split.
      * intros (c & r & Hi & HP). apply in_app_or in Hi as [Hi|Hi].
        -- destruct (proj1 (L4 P)) as (c0 & r0 & Hi0 & HP0); [eauto|]. exists c0, r0. split; [apply in_or_app; auto|exact HP0].
        -- destruct (proj1 (S4 P)) as (c0 & r0 & -> & HP0); [eauto|]. exists c0, r0. split; [apply in_or_app; cbn; auto|exact HP0].
      * intros (c & r & Hi & HP). apply in_app_or in Hi as [Hi|[Hi|[]]].
        -- destruct (proj2 (L4 P)) as (c0 & r0 & Hi0 & HP0); [eauto|]. exists c0, r0. split; [apply in_or_app; auto|exact HP0].
        -- destruct (proj2 (S4 P)) as (c0 & r0 & Hi0 & HP0); [eauto|]. exists c0, r0. split; [apply in_or_app; auto|exact HP0].
    + intros w. rewrite S5, L5. unfold status. rewrite fold_left_app. reflexivity.
    + intros x. rewrite S6, L6. rewrite in_app_iff. cbn. split; intros [Hx|Hx]; auto. destruct Hx as [Hx|[]]; auto.
Qed.

Lemma shown_sorted call cid ow o term : ledger_call_ok H call -> shown H call cid ow o term -> op_sorted o.
Proof.
  intros (Ok & _) Hs. destruct call as [c r|f r|k|x|r after|]; cbn [shown] in Hs; try contradiction.
  - destruct Ok as (_ & Sg & Se & Sb). destruct Hs as (_ & [(_ & -> & _)|[(wb & b & Hw & Hb & Ho & _)|(w & Ho & _)]]); auto.
    apply (Sb wb o Hw). unfold wb_known_transitions. apply in_flat_map. eauto.
  - destruct Hs as (b & Hb & Ho & _). exact (proj2 (Ok _ Hb) o Ho).
Qed.

Lemma told_sorted l cid ow o x : (forall c, In c l -> ledger_call_ok H c) -> told H l cid ow o x -> op_sorted o.
Proof.
  intros Hok (bf & call & af & term & -> & Hs & _). apply (shown_sorted call cid ow o term); [|exact Hs].
  apply Hok, in_or_app. cbn. auto.
Qed.

Lemma ledger_sorted l ls : (forall c, In c l -> ledger_call_ok H c) -> ledger_of l ls -> history_sorted H ls.
Proof.
  intros Hok (_ & _ & L3 & _) c cid ow o' Hc Hi. destruct (proj1 (L3 cid ow o')) as (o & x & Ht & ->); [eauto|].
  apply resolved_sorted, (told_sorted _ _ _ _ _ Hok Ht).
Qed.

Lemma ledger_alive l ls w : ledger_of l ls -> (live (state_after H ls) w <-> alive l w).
Proof.
  intros (L1 & _ & _ & _ & L5 & _). destruct w as [w|]; [|tauto]. cbn [live alive]. rewrite <- L1. setoid_rewrite L5. tauto.
Qed.

Lemma ledger_one l ls : ledger_of l ls -> told_once H l -> one_witness H ls.
Proof.
  intros (_ & _ & L3 & _) HW c c' cid ow ow' o1 o1' Hc Hc' Hi Hi' Ei.
  destruct (proj1 (L3 cid ow o1)) as (o & x & Ht & ->); [eauto|].
  destruct (proj1 (L3 cid ow' o1')) as (o' & x' & Ht' & ->); [eauto|]. rewrite !resolved_id in Ei.
  destruct (HW _ _ _ _ _ _ _ Ht Ht' Ei) as [Hw|Hw]; [auto|right]. intros ty ta' no seal st Hta Hn.
  apply resolved_In in Hta as (ta & Hta & ->). rewrite opened_list, nth_error_map in Hn.
  destruct (nth_error (ta_list ta) no) as [b|] eqn:Eb; [|discriminate]. apply Some_inj, opened_seen in Hn. eauto.
Qed.
End Ledger.

(** ** The supply *)

Lemma Forall2_exists {A B} (R : A -> B -> Prop) l : (forall a, In a l -> exists b, R a b) -> exists l', Forall2 R l l'.
Proof.
  induction l as [|a l IH]; intros Hl; [exists []; constructor|]. destruct (Hl a (or_introl eq_refl)) as (b & Hb).
  destruct IH as (l' & F); [intros x Hx; apply Hl; right; exact Hx|]. exists (b :: l'). constructor; assumption.
Qed.
Lemma Forall2_weaken {A B} (R S : A -> B -> Prop) l l' : (forall a b, R a b -> S a b) -> Forall2 R l l' -> Forall2 S l l'.
Proof. intros Hi F. induction F; constructor; auto. Qed.
Lemma Forall2_map_eq {A B C} (f : A -> C) (g : B -> C) (R : A -> B -> Prop) l l' :
  (forall a b, R a b -> g b = f a) -> Forall2 R l l' -> map g l' = map f l.
Proof. intros Hi F. induction F; cbn; f_equal; auto. Qed.

Lemma amounts_resolved H x o ty : amounts_of H (resolved H x o) ty = amounts_of H o ty.
Proof.
  unfold amounts_of. rewrite resolved_id, resolved_assigns, mget_mmap. destruct (mget ty (op_assigns o)) as [[k l]|]; [|reflexivity].
  cbn [option_map]. destruct x as [x|]; cbn [opened_ta reveal_typed ta_kind ta_list]; [|reflexivity]. rewrite map_length. reflexivity.
Qed.
Lemma spent_resolved H x o ty : spent_of (resolved H x o) ty = spent_of o ty.
Proof. unfold spent_of. rewrite resolved_inputs. reflexivity. Qed.

Lemma opened_state H x a : revealed_state (opened H x a) = revealed_state a.
Proof. destruct x as [x|]; [|reflexivity]. destruct a; cbn; try reflexivity; destruct (_ =? _); reflexivity. Qed.

Lemma nodup_ids H (l : list Operation) a b : NoDup (map (op_id H) l) -> In a l -> In b l -> op_id H a = op_id H b -> a = b.
Proof.
  induction l as [|y l IH]; intros Hn Ha Hb E; [destruct Ha|]. cbn [map] in Hn. inversion Hn as [|? ? N1 N2]; subst.
  destruct Ha as [<-|Ha], Hb as [<-|Hb]; auto.
  - exfalso. apply N1. rewrite E. apply in_map, Hb.
  - exfalso. apply N1. rewrite <- E. apply in_map, Ha.
Qed.

Section Supply.
Context {OG : OrdKey GlobalOut}.
Context (H : Hashes) (HC : collision_free H) (K : Merkle).
Context (l : list StockCall) (ls : list StateCall) (L : ledger_of H K l ls) (cid ty : N).

Lemma known_told ow o' : known_live H ls cid ow o' <-> exists o x, told_alive H l cid ow o x /\ o' = resolved H x o.
Proof.
  unfold known_live, told_alive. pose proof L as (_ & _ & L3 & _). split.
  - intros (call & Hc & Hi & Hl). destruct (proj1 (L3 cid ow o')) as (o & x & Ht & ->); [eauto|].
    exists o, x. split; [|reflexivity]. split; [exact Ht|apply (ledger_alive H K l ls _ L), Hl].
  - intros (o & x & (Ht & Hl) & ->). destruct (proj2 (L3 cid ow (resolved H x o))) as (sc & Hsc & Hi); [eauto|].
    exists sc. split; [exact Hsc|]. split; [exact Hi|apply (ledger_alive H K l ls _ L), Hl].
Qed.

Definition seen_op (o o' : Operation) : Prop := exists ow x, told_alive H l cid ow o x /\ o' = resolved H x o.

Lemma seen_ids ops ops' : Forall2 seen_op ops ops' -> map (op_id H) ops' = map (op_id H) ops.
Proof. apply Forall2_map_eq. intros o o' (ow & x & _ & ->). apply resolved_id. Qed.

Lemma lift_enum ops ops' : Forall2 seen_op ops ops' -> lists_told H l cid ops -> enumerates H ls cid ops'.
Proof.
  intros F (A & B & C). unfold enumerates. rewrite (seen_ids _ _ F). split; [exact A|]. split.
  - intros o' Ho. destruct (Forall2_r _ _ _ _ F Ho) as (o & _ & ow & x & Ht & ->). exists ow. apply known_told. eauto.
  - intros ow o' Hk. apply known_told in Hk as (o & x & Ht & ->). rewrite resolved_id. exact (C ow o x Ht).
Qed.

Lemma lift_one : one_alive H l cid -> one_live_witness H ls cid.
Proof.
  intros W ow ow' o1 o1' Hk Hk' E. apply known_told in Hk as (o & x & Ht & ->). apply known_told in Hk' as (o' & x' & Ht' & ->).
  rewrite !resolved_id in E. exact (W _ _ _ _ _ _ Ht Ht' E).
Qed.

Lemma lift_truth worth : tells_worth H l cid ty worth -> truthful H ls cid ty worth.
Proof.
  intros T ow o' ta' no a st Hk Hta Hkd Hn Hr. apply known_told in Hk as (o & x & Ht & ->).
  apply resolved_In in Hta as (ta & Hta & ->). rewrite opened_kind in Hkd. rewrite opened_list, nth_error_map in Hn.
  destruct (nth_error (ta_list ta) no) as [b|] eqn:Eb; [|discriminate]. apply Some_inj in Hn. subst a.
  rewrite opened_state in Hr. rewrite resolved_id. exact (T _ _ _ _ _ _ _ Ht Hta Hkd Eb Hr).
Qed.

Lemma seen_amounts o o' : seen_op o o' -> amounts_of H o' ty = amounts_of H o ty.
Proof. intros (ow & x & _ & ->). apply amounts_resolved. Qed.
Lemma seen_spent o o' : seen_op o o' -> spent_of o' ty = spent_of o ty.
Proof. intros (ow & x & _ & ->). apply spent_resolved. Qed.
Lemma seen_inputs o o' : seen_op o o' -> op_inputs o' = op_inputs o.
Proof. intros (ow & x & _ & ->). apply resolved_inputs. Qed.
Lemma seen_id o o' : seen_op o o' -> op_id H o' = op_id H o.
Proof. intros (ow & x & _ & ->). apply resolved_id. Qed.

Lemma lift_valid ops ops' worth (issued : N -> N) : Forall2 seen_op ops ops' -> lists_told H l cid ops ->
  valid_supply H ops ty worth (fun o => issued (op_id H o)) -> valid_supply H ops' ty worth (fun o => issued (op_id H o)).
Proof.
  intros F En (V1 & V2 & V3 & V4).
  assert (Nd : NoDup (map (op_id H) ops')) by (rewrite (seen_ids _ _ F); apply En).
  split; [|split; [|split]].
  - intros o' Ho. destruct (Forall2_r _ _ _ _ F Ho) as (o & Hin & R). rewrite (seen_amounts _ _ R), (seen_spent _ _ R), (seen_id _ _ R). auto.
  - intros o' y Ho Hy. destruct (Forall2_r _ _ _ _ F Ho) as (o & Hin & R). rewrite (seen_spent _ _ R) in Hy.
    destruct (V2 o y Hin Hy) as (p & Hp & Hy'). destruct (Forall2_l _ _ _ _ F Hp) as (p' & Hp' & R').
    exists p'. split; [exact Hp'|]. rewrite (seen_amounts _ _ R'). exact Hy'.
  - intros o1' o2' y H1 H2 Y1 Y2. destruct (Forall2_r _ _ _ _ F H1) as (o1 & I1 & R1). destruct (Forall2_r _ _ _ _ F H2) as (o2 & I2 & R2).
    rewrite (seen_spent _ _ R1) in Y1. rewrite (seen_spent _ _ R2) in Y2. pose proof (V3 o1 o2 y I1 I2 Y1 Y2) as E.
    apply (nodup_ids H ops' _ _ Nd H1 H2). rewrite (seen_id _ _ R1), (seen_id _ _ R2), E. reflexivity.
  - intros o' Ho. destruct (Forall2_r _ _ _ _ F Ho) as (o & Hin & R). rewrite (seen_inputs _ _ R). auto.
Qed.

Lemma lift_unspent ops ops' outs : Forall2 seen_op ops ops' -> unspent ops' ty outs = unspent ops ty outs.
Proof.
  intros F. unfold unspent. apply filter_ext. intros a. f_equal. f_equal. unfold is_spent.
  induction F as [|o o' ops ops' R F IH]; cbn [existsb]; [reflexivity|]. rewrite (seen_inputs _ _ R), IH. reflexivity.
Qed.

Lemma lift_issued ops ops' (issued : N -> N) : Forall2 seen_op ops ops' ->
  map (fun o => issued (op_id H o)) ops' = map (fun o => issued (op_id H o)) ops.
Proof. apply Forall2_map_eq. intros o o' R. rewrite (seen_id _ _ R). reflexivity. Qed.

Lemma lift_exact ops ops' worth (issued : N -> N) :
  Forall2 (fun o o' => exists ow x, (told_alive H l cid ow o x /\
     forall ta a, In (ty, ta) (op_assigns o) -> In a (ta_list ta) -> exists seal st, seen_as H x a seal st) /\ o' = resolved H x o) ops ops' ->
  (forall o, In o ops -> worth_of worth (amounts_of H o ty) = worth_of worth (spent_of o ty) + issued (op_id H o)) ->
  exact_supply H ops' ty worth (fun o => issued (op_id H o)).
Proof.
  intros F Hb o' Ho. destruct (Forall2_r _ _ _ _ F Ho) as (o & Hin & ow & x & (_ & Hx) & ->).
  rewrite amounts_resolved, spent_resolved, resolved_id. split; [exact (Hb o Hin)|].
  intros ta' a Hta Ha. apply resolved_In in Hta as (ta & Hta & ->). rewrite opened_list in Ha. apply in_map_iff in Ha as (b & <- & Hin').
  destruct (Hx ta b Hta Hin') as (seal & st & Hs). exists seal, st. apply opened_seen, Hs.
Qed.
End Supply.

(** ** Calls which may fail *)

Section Brought.
Context {OG : OrdKey GlobalOut}.
Context (H : Hashes) (HC : collision_free H) (K : Merkle).

Lemma stored_only l x : In x (st_seals (sk_stash (stock_after H K sk_empty l))) -> In (SkSeal x) l.
Proof.
  intros Hx. destruct (after_moved H K l sk_empty) as (_ & _ & lh & Eh & Ph). rewrite Eh in Hx.
  destruct (opened_by H (stash_after H K st_empty lh) (Some (h_seal H x))) as (y & Hy & Ey). destruct y as [y|].
  - destruct Hy as [Hy _]. apply Some_inj in Hy. apply HC in Hy. subst y. symmetry in Ey. apply StashProps.C50_only_stored in Ey as [_ Ey].
    destruct (Ph _ Ey) as (c & s0 & Hc & Hs). destruct c as [c r|f r|k|z|r after|]; cbn [stash_of] in Hs; try contradiction.
    + destruct Hs as (c' & _ & Hs). discriminate.
    + destruct Hs as [Hs|(p & _ & Hs)]; discriminate.
    + discriminate.
    + injection Hs as ->. exact Hc.
  - destruct (Hy x Hx eq_refl).
Qed.

Lemma state_of_shown call s sc cid ow o' : ledger_call_ok H call -> state_of H call s sc -> imports H sc cid ow o' ->
  exists o term x, shown H call cid ow o term /\ opens_in H (st_seals (sk_stash s)) term x /\ o' = resolved H x o.
Proof.
  intros (Ok & Ol) Hs Hi. destruct call as [c r|f r|k|z|r after|]; cbn [state_of] in Hs; try contradiction.
  - destruct Ol as (Mt & Mo). destruct Hs as (c' & Er & ->). destruct (resolved_rel H _ c c' HC Mt Mo Er) as [Ec F].
    assert (Eg : c_genesis c' = c_genesis c) by (rewrite Ec; reflexivity).
    assert (Ee : c_extensions c' = c_extensions c) by (rewrite Ec; reflexivity).
    destruct Hi as (Hcid & Hi). rewrite Eg in Hcid, Hi. cbn [shown].
    destruct Hi as [(-> & ->)|[(wb' & Hw & Ho & ->)|(w & Ho & Hf & ->)]].
    + exists (c_genesis c), None, None. split; [split; [exact Hcid|auto]|]. split; [apply opens_none|]; reflexivity.
    + destruct (Forall2_r _ _ _ _ F Hw) as (wb & Hwb & W). destruct (proj1 (known_rel H HC _ _ _ _ _ W) Ho) as (b & o & x & Hb & Hob & Hx & ->).
      exists o, (mget (bundle_id H b) (c_terminals c)), x. split; [|auto]. split; [exact Hcid|]. right. left.
      exists wb, b. rewrite (proj1 W), resolved_ty. auto 10.
    + rewrite Ee in Ho. apply (first_rel H HC _ _ c c' _ _ F) in Hf. exists o', None, None.
      split; [|split; [apply opens_none|]; reflexivity]. split; [exact Hcid|]. right. right. exists w. auto 10.
  - destruct Hs as ([i b] & Hp & ->). destruct Hi as (-> & Ho & ->). cbn [fst snd] in *.
    exists o', None, None. split; [exists b; auto|]. split; [apply opens_none|]; reflexivity.
  - subst sc. destruct Hi.
Qed.

Lemma brought_snoc l call cid ow o x : brought H l cid ow o x -> brought H (l ++ [call]) cid ow o x.
Proof.
  intros (bf & c & af & term & -> & Hs & Ho). exists bf, c, (af ++ [call]), term. rewrite <- app_assoc. auto.
Qed.

Lemma ledger_brought l : (forall c, In c l -> ledger_call_ok H c) ->
  exists ls, sk_state (stock_after H K sk_empty l) = state_after H ls /\
    forall sc cid ow o', In sc ls -> imports H sc cid ow o' -> exists o x, brought H l cid ow o x /\ o' = resolved H x o.
Proof.
  induction l as [|call l IH] using rev_ind; intros Hok.
  - exists []. split; [reflexivity|]. intros sc cid ow o' [].
  - destruct IH as (ls & L1 & L2); [intros c Hc; apply Hok, in_or_app; auto|].
    assert (Ho : ledger_call_ok H call) by (apply Hok, in_or_app; right; left; reflexivity).
    destruct (body_moved H K call (stock_after H K sk_empty l)) as (_ & (lc & Ec & Pc) & _).
    exists (ls ++ lc). split.
    + replace (stock_after H K sk_empty (l ++ [call])) with (fst (stock_body H K call (stock_after H K sk_empty l)))
        by (unfold stock_after; rewrite fold_left_app; reflexivity).
      rewrite Ec, L1. unfold state_after. rewrite <- state_calls_app. reflexivity.
    + intros sc cid ow o' Hsc Hi. apply in_app_or in Hsc as [Hsc|Hsc].
      * destruct (L2 sc cid ow o' Hsc Hi) as (o & x & Hb & E). exists o, x. split; [apply brought_snoc, Hb|exact E].
      * destruct (state_of_shown call _ sc cid ow o' Ho (Pc sc Hsc) Hi) as (o & term & x & Hs & Hx & ->). exists o, x. split; [|reflexivity].
        exists l, call, [], term. split; [reflexivity|]. split; [exact Hs|]. intros s ->. destruct Hx as [E Hx]. split; [exact E|].
        apply stored_only, Hx.
Qed.
End Brought.
