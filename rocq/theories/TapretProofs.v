(** Proofs for C87 *)
From Verif Require Import Base StM Core MergeModel MergeSpec MergeProofs ContainerModel ContainerSpec ContainerProofs ContainerProps.
From Verif Require Import PIndexModel StateModel StashModel StashSpec StashProofs StashAgain StockModel StockProofs StockAgain.
From Verif Require Import ConsignSpec ConsignAccept ReplicaMore RelayProofs AcceptSpec TapretSpec.
Local Open Scope N_scope.

(** ** One witness *)

Definition by_id (m : omap WitnessId SealWitness) : Prop := forall k x, mget k m = Some x -> sw_id x = k.

(** The map has the commitment *)
Definition has (m : omap WitnessId SealWitness) (w : WitnessId) (mt : CloseMethod) (root proof : N) : Prop :=
  exists x a, mget w m = Some x /\ anchor_under mt (sw_anchors x) = Some a /\ an_root a = root /\ an_dbc a = proof.
(** The witness has it *)
Definition carries (x : SealWitness) (w : WitnessId) (mt : CloseMethod) (root proof : N) : Prop :=
  sw_id x = w /\ exists a, anchor_under mt (sw_anchors x) = Some a /\ an_root a = root /\ an_dbc a = proof.

Lemma merge_anchor_same x y r : merge_anchor x y = Ok r ->
  an_root r = an_root x /\ an_dbc r = an_dbc x /\ an_root y = an_root x /\ an_dbc y = an_dbc x.
Proof.
  unfold merge_anchor. destruct (N.eqb_spec (an_dbc x) (an_dbc y)); cbn [negb]; [|discriminate].
  destruct (N.eqb_spec (an_root x) (an_root y)); cbn [negb]; [|discriminate]. intros E. apply Ok_inj in E as <-. cbn. auto.
Qed.

Lemma merge_anchors_has a b r mt root proof : merge_anchors a b = Ok r ->
  (exists x, anchor_under mt r = Some x /\ an_root x = root /\ an_dbc x = proof) <->
  (exists x, anchor_under mt a = Some x /\ an_root x = root /\ an_dbc x = proof) \/
  (exists x, anchor_under mt b = Some x /\ an_root x = root /\ an_dbc x = proof).
Proof.
  destruct a as [t|o|t o], b as [t'|o'|t' o']; cbn [merge_anchors]; intros E.
  all: repeat match type of E with
    | context [merge_anchor ?x ?y] => let F := fresh "F" in destruct (merge_anchor x y) as [?|?|] eqn:F; cbn [rmap rbind] in E; [apply merge_anchor_same in F as (? & ? & ? & ?)|discriminate|discriminate]
    end; apply Ok_inj in E as <-; destruct mt; cbn [anchor_under tapret_of opret_of].
  all: split; [intros (x & X & <- & <-)|intros [(x & X & <- & <-)|(x & X & <- & <-)]]; try discriminate X; apply Some_inj in X; subst x.
  all: first [eexists; split; [reflexivity|]; split; congruence
             |left; eexists; split; [reflexivity|]; split; congruence
             |right; eexists; split; [reflexivity|]; split; congruence].
Qed.

Lemma put_has w m m' : by_id m -> put_witness w m m' ->
  by_id m' /\ forall x mt root proof, has m' x mt root proof <-> has m x mt root proof \/ carries w x mt root proof.
Proof.
  intros Fi P. unfold put_witness in P. destruct (mget (sw_id w) m) as [old|] eqn:Eo.
  - destruct P as (p & a & Ep & Ea & ->). apply merge_xpub_id in Ep as [Ip _].
    assert (Io : sw_id old = sw_id w) by (apply Fi, Eo). assert (Iw : witness_id p = sw_id w) by (rewrite Ip; exact Io).
    split.
    + intros k x. rewrite mget_insert. destruct (keqb k (witness_id p)) eqn:Ek; [|apply Fi].
      apply keqb_true in Ek. intros X. apply Some_inj in X. subst x k. reflexivity.
    + intros x mt root proof. unfold has, carries. rewrite Iw, mget_insert. destruct (keqb x (sw_id w)) eqn:Ek.
      * apply keqb_true in Ek. subst x. pose proof (merge_anchors_has _ _ _ mt root proof Ea) as M. split.
        -- intros (y & b & X & Y). apply Some_inj in X. subst y. cbn [sw_anchors] in Y.
           destruct (proj1 M (ex_intro _ b Y)) as [(z & Z)|(z & Z)]; [left; exists old, z; auto|right; split; [reflexivity|exists z; exact Z]].
        -- intros D. assert (Z : exists z, anchor_under mt a = Some z /\ an_root z = root /\ an_dbc z = proof).
           { apply M. destruct D as [(y & b & X & Y)|[_ (b & Y)]]; [|right; exists b; exact Y]. left.
             rewrite Eo in X. apply Some_inj in X. subst y. exists b. exact Y. }
           destruct Z as (z & Z). eexists. exists z. split; [reflexivity|exact Z].
      * split; [auto|]. intros [X|[X _]]; [exact X|]. subst x. rewrite keqb_refl in Ek. discriminate.
  - subst m'. split.
    + intros k x. rewrite mget_insert. destruct (keqb k (sw_id w)) eqn:Ek; [|apply Fi].
      apply keqb_true in Ek. intros X. apply Some_inj in X. subst x k. reflexivity.
    + intros x mt root proof. unfold has, carries. rewrite mget_insert. destruct (keqb x (sw_id w)) eqn:Ek.
      * apply keqb_true in Ek. subst x. split.
        -- intros (y & b & X & Y). apply Some_inj in X. subst y. right. split; [reflexivity|exists b; exact Y].
        -- intros [(y & b & X & Y)|[_ (b & Y)]]; [congruence|]. exists w, b. auto.
      * split; [auto|]. intros [X|[X _]]; [exact X|]. subst x. rewrite keqb_refl in Ek. discriminate.
Qed.

Lemma put_all_has l : forall m m', by_id m -> put_all l m m' ->
  by_id m' /\ forall x mt root proof, has m' x mt root proof <-> has m x mt root proof \/ exists w, In w l /\ carries w x mt root proof.
Proof.
  induction l as [|w l IH]; intros m m' Fi P.
  - cbn in P. subst m'. split; [exact Fi|]. intros. split; [auto|]. intros [X|(w & [] & _)]. exact X.
  - destruct P as (m1 & P1 & P2). destruct (put_has _ _ _ Fi P1) as [F1 Q1]. destruct (IH _ _ F1 P2) as [F2 Q2].
    split; [exact F2|]. intros. rewrite Q2, Q1. cbn [In]. split.
    + intros [[X|X]|(y & Hy & X)]; [auto|right; exists w; auto|right; exists y; auto].
    + intros [X|(y & [<-|Hy] & X)]; [auto|auto|right; exists y; auto].
Qed.

(** ** Calls which may fail *)

Lemma keeps_fail {A B} (f : MemStash -> B) e : keeps f (fail e : STM A).
Proof. intros s s' r [= <- _]. reflexivity. Qed.
Lemma keeps_attempt {B} (f : MemStash -> B) (m : STM unit) : keeps f m -> keeps f (attempt m).
Proof. intros Km s s' r. unfold attempt. destruct (m s) as [s1 [a|e|]] eqn:E; intros [= <- _]; exact (Km _ _ _ E). Qed.

(** A call which reads the stash and then writes it, keeping [f] *)
Definition holding {A B} (f : MemStash -> B) (v : B) (m : STM A) : Prop := forall s, f s = v -> f (fst (m s)) = v.
Lemma hold_ret {A B} (f : MemStash -> B) v (a : A) : holding f v (ret a).
Proof. intros s E. exact E. Qed.
Lemma hold_fail {A B} (f : MemStash -> B) v e : holding f v (fail e : STM A).
Proof. intros s E. exact E. Qed.
Lemma hold_panic {A B} (f : MemStash -> B) v : holding f v (panic : STM A).
Proof. intros s E. exact E. Qed.
Lemma hold_lift {A B} (f : MemStash -> B) v (x : result StashError A) : holding f v (lift x).
Proof. intros s E. exact E. Qed.
Lemma hold_grown {A B} (f : MemStash -> B) v (x : option A) : holding f v (grown x).
Proof. intros s E. exact E. Qed.
Lemma hold_put {B} (f : MemStash -> B) v s0 : f s0 = v -> holding f v (put s0).
Proof. intros E0 s E. exact E0. Qed.
Lemma hold_bind {A A' B} (f : MemStash -> B) v (m : STM A) (k : A -> STM A') : holding f v m -> (forall a, holding f v (k a)) -> holding f v (bind m k).
Proof. intros Hm Hk s E. unfold bind. specialize (Hm s E). destruct (m s) as [s1 [a|e|]]; [apply Hk, Hm|exact Hm ..]. Qed.
Lemma hold_get {A' B} (f : MemStash -> B) v (k : MemStash -> STM A') : (forall s, f s = v -> holding f v (k s)) -> holding f v (bind get k).
Proof. intros Hk s E. exact (Hk s E s E). Qed.
Lemma hold_mfor {A B} (f : MemStash -> B) v (g : A -> STM unit) l : (forall a, holding f v (g a)) -> holding f v (mfor g l).
Proof. intros Hg. induction l as [|x l IH]; cbn [mfor]; [apply hold_ret|apply hold_bind; auto]. Qed.
Lemma hold_attempt {B} (f : MemStash -> B) v (m : STM unit) : holding f v m -> holding f v (attempt m).
Proof. intros Hm s E. specialize (Hm s E). unfold attempt. destruct (m s) as [s1 [a|e|]]; exact Hm. Qed.

Ltac hold := repeat match goal with
  | |- holding _ _ (ret _) => apply hold_ret
  | |- holding _ _ (fail _) => apply hold_fail
  | |- holding _ _ panic => apply hold_panic
  | |- holding _ _ (lift _) => apply hold_lift
  | |- holding _ _ (grown _) => apply hold_grown
  | |- holding _ _ (put _) => apply hold_put; assumption
  | |- holding _ _ (attempt _) => apply hold_attempt
  | |- holding _ _ (mfor _ _) => apply hold_mfor; intros ?
  | |- holding _ _ (bind get _) => apply hold_get; intros ? ?
  | |- holding _ _ (bind _ _) => apply hold_bind; [|intros ?]
  | |- holding _ _ (if ?b then _ else _) => destruct b
  | |- holding _ _ (match ?x with _ => _ end) => destruct x
  end.

Section Calls.
Context (H : Hashes) (K : Merkle).

Lemma kit_witnesses k v : holding st_witnesses v (consume_kit k).
Proof. unfold consume_kit, consume_types, replace_lib, replace_schema, replace_iface, replace_iimpl, add_supplement, import_sigs. hold. Qed.
Lemma attachment_witnesses v p : holding st_witnesses v (replace_attachment (fst p) (snd p) ;;! ret tt).
Proof. unfold replace_attachment. hold. Qed.
Lemma genesis_holds g v : holding st_witnesses v (consume_genesis H g).
Proof. unfold consume_genesis, replace_genesis. hold. Qed.
Lemma extension_holds g v : holding st_witnesses v (consume_extension H g).
Proof. unfold consume_extension, replace_extension. hold. Qed.
Lemma bundle_holds b v : holding st_witnesses v (consume_bundle H b).
Proof. unfold consume_bundle, replace_bundle. hold. Qed.

(** A witness is put or nothing happens. *)
Lemma consume_witness_may w s : put_witness w (st_witnesses s) (st_witnesses (fst (consume_witness w s))) \/
  st_witnesses (fst (consume_witness w s)) = st_witnesses s.
Proof.
  destruct (consume_witness w s) as [s' [b|e|]] eqn:E; cbn [fst]; [left; eapply consume_witness_puts, E|right ..].
  all: revert E; unfold consume_witness, bind, get, lift; destruct (mget (sw_id w) (st_witnesses s)) as [old|].
  all: try (destruct (merge_xpub _ _) as [p|x|]; cbn [rmap_err]; [|intros E; injection E as <-; reflexivity|intros E; injection E as <-; reflexivity]).
  all: try (destruct (merge_anchors _ _) as [a|x|]; cbn [rmap_err]; [|intros E; injection E as <-; reflexivity|intros E; injection E as <-; reflexivity]).
  all: unfold ret, replace_witness, bind, get, grown, lift, put; destruct (cinsert _ _ _ _) as [m|]; cbn [ok_or]; intros E; [discriminate|try discriminate; injection E as <-; reflexivity].
Qed.

(** The anchors of the bundles under a witness *)
Lemma anchors_of_has cid l r a s mt root proof : anchor_vals H K cid l = Some r -> anchors_of r s = (s, Ok a) ->
  (exists x, anchor_under mt a = Some x /\ an_root x = root /\ an_dbc x = proof) ->
  exists p, In p l /\ dp_method (ea_dbc (fst p)) = mt /\ dp_data (ea_dbc (fst p)) = proof /\
    mk_with K (ea_mpc (fst p)) cid (bundle_id H (snd p)) = Some root.
Proof.
  intros Ev Ea (x & Ex & <- & <-).
  assert (V : forall l r, anchor_vals H K cid l = Some r -> forall y, In y r -> exists p, In p l /\
    dp_method (ea_dbc (fst p)) = fst y /\ dp_data (ea_dbc (fst p)) = an_dbc (snd y) /\ mk_with K (ea_mpc (fst p)) cid (bundle_id H (snd p)) = Some (an_root (snd y))).
  { clear. induction l as [|p l IH]; intros r E y Hy; cbn [anchor_vals] in E; [apply Some_inj in E; subst r; destruct Hy|].
    destruct (mk_with K _ _ _) as [root|] eqn:Em; [|discriminate]. destruct (anchor_vals H K cid l) as [r'|]; [|discriminate].
    apply Some_inj in E. subst r. destruct Hy as [<-|Hy]; [exists p; cbn; auto|].
    destruct (IH r' eq_refl y Hy) as (q & Hq & X). exists q. split; [right; exact Hq|exact X]. }
  assert (In (mt, x) r).
  { apply in_rev. revert Ea. unfold anchors_of. destruct (rev r) as [|[[] y] [|[[] z] q]]; unfold ret, panic; intros E; try discriminate; injection E as <-;
      destruct mt; cbn [anchor_under tapret_of opret_of] in Ex; try discriminate; apply Some_inj in Ex; subst x; cbn; auto. }
  destruct (V _ _ Ev _ H0) as (p & Hp & X). exists p. split; [exact Hp|exact X].
Qed.
Lemma anchored_two (ab : AnchoredBundles) : (exists p, anchored_iter ab = [p]) \/ exists p q, anchored_iter ab = [p; q].
Proof. destruct ab; [left; eexists; reflexivity|left; eexists; reflexivity|right; do 2 eexists; reflexivity]. Qed.
Lemma has_anchors_of cid ab r a s p root : anchor_vals H K cid (anchored_iter ab) = Some r -> anchors_of r s = (s, Ok a) ->
  In p (anchored_iter ab) -> mk_with K (ea_mpc (fst p)) cid (bundle_id H (snd p)) = Some root ->
  exists x, anchor_under (dp_method (ea_dbc (fst p))) a = Some x /\ an_root x = root /\ an_dbc x = dp_data (ea_dbc (fst p)).
Proof.
  intros Ev Ea Hp Em. destruct (anchored_two ab) as [(p1 & E)|(p1 & p2 & E)]; rewrite E in *; cbn [anchor_vals] in Ev.
  - destruct Hp as [->|[]]. rewrite Em in Ev. apply Some_inj in Ev. subst r. unfold anchors_of in Ea. cbn [rev app] in Ea.
    destruct (dp_method (ea_dbc (fst p))); unfold ret in Ea; injection Ea as <-; eexists; split; try reflexivity; auto.
  - destruct (mk_with K (ea_mpc (fst p1)) cid (bundle_id H (snd p1))) as [r1|] eqn:E1; [|discriminate].
    destruct (mk_with K (ea_mpc (fst p2)) cid (bundle_id H (snd p2))) as [r2|] eqn:E2; [|discriminate].
    apply Some_inj in Ev. subst r. unfold anchors_of in Ea. cbn [rev app] in Ea.
    destruct Hp as [->|[->|[]]]; destruct (dp_method (ea_dbc (fst p))) eqn:Dp;
      [destruct (dp_method (ea_dbc (fst p2)))|destruct (dp_method (ea_dbc (fst p2)))|destruct (dp_method (ea_dbc (fst p1)))|destruct (dp_method (ea_dbc (fst p1)))];
      unfold ret, panic in Ea; try discriminate; injection Ea as <-; (eexists; split; [reflexivity|]); cbn; split; congruence.
Qed.

(** What a call to the stash may bring, whether it succeeds or not *)
Lemma wb_may cid wb s : exists ws, (forall w, In w ws -> wb_put H K cid wb w) /\
  put_all ws (st_witnesses s) (st_witnesses (fst (consume_witness_bundle H K cid wb s))).
Proof.
  unfold consume_witness_bundle. unfold bind at 1. destruct (anchor_all H K cid _ s) as [s1 [r|e|]] eqn:E1.
  2,3: exists []; split; [intros w []|]; cbn; eapply anchor_all_witnesses, E1.
  unfold bind at 1. destruct (anchors_of r s1) as [s2 [a|e|]] eqn:E2.
  2,3: exists []; (split; [intros w []|]); cbn; unfold anchors_of in E2; destruct (rev r) as [|[[] x] [|[[] y] q]]; unfold ret, panic in E2; try discriminate; injection E2 as <-;
       eapply anchor_all_witnesses, E1.
  destruct (anchors_of_pure r s1 s2 a E2) as [-> Pa]. pose proof (anchor_all_vals H K cid _ _ _ _ E1) as Ev. apply anchor_all_witnesses in E1.
  set (w := {| sw_public := wb_witness wb; sw_anchors := a |}).
  replace (fst ((consume_witness w ;;! ret tt) s1)) with (fst (consume_witness w s1)) by (unfold bind; destruct (consume_witness w s1) as [s3 [b|e|]]; reflexivity).
  destruct (consume_witness_may w s1) as [P|P].
  - exists [w]. split; [intros y [<-|[]]; exists r, a; auto|]. rewrite E1 in P. eexists. split; [exact P|reflexivity].
  - exists []. split; [intros y []|]. cbn [put_all]. rewrite P. exact E1.
Qed.
Lemma wbs_may cid l : forall s, exists ws, (forall w, In w ws -> exists wb, In wb l /\ wb_put H K cid wb w) /\
  put_all ws (st_witnesses s) (st_witnesses (fst (mfor (consume_witness_bundle H K cid) l s))).
Proof.
  induction l as [|wb l IH]; intros s; cbn [mfor]; [exists []; split; [intros w []|reflexivity]|].
  destruct (wb_may cid wb s) as (w1 & H1 & P1). unfold bind. destruct (consume_witness_bundle H K cid wb s) as [s1 [u|e|]]; cbn [fst] in P1.
  - destruct (IH s1) as (w2 & H2 & P2). exists (w1 ++ w2). split; [|exact (put_all_app _ _ _ _ _ P1 P2)].
    intros w Hw. apply in_app_or in Hw as [Hw|Hw]; [exists wb; split; [left; reflexivity|auto]|].
    destruct (H2 w Hw) as (b & Hb & X). exists b. split; [right; exact Hb|exact X].
  - exists w1. split; [|exact P1]. intros w Hw. exists wb. split; [left; reflexivity|auto].
  - exists w1. split; [|exact P1]. intros w Hw. exists wb. split; [left; reflexivity|auto].
Qed.

Lemma call_may x s : exists ws, (forall w, In w ws -> sh_puts H K x w) /\ put_all ws (st_witnesses s) (st_witnesses (fst (stash_call H K x s))).
Proof.
  assert (No : forall t, st_witnesses t = st_witnesses s -> exists ws, (forall w, In w ws -> sh_puts H K x w) /\ put_all ws (st_witnesses s) (st_witnesses t)).
  { intros t E. exists []. split; [intros w []|exact E]. }
  destruct x as [c|k|w|b|y|id lv]; cbn [stash_call] in *.
  - unfold consume_consignment. cbv zeta. unfold bind at 1. pose proof (genesis_holds (c_genesis c) _ s eq_refl) as Ea.
    destruct (consume_genesis H _ s) as [sa [ua|e|]]; cbn [fst] in Ea; [|exact (No _ Ea)..].
    unfold bind at 1. pose proof (hold_mfor st_witnesses _ (consume_extension H) (c_extensions c) (fun g => extension_holds g _) sa eq_refl) as Eb.
    destruct (mfor (consume_extension H) _ sa) as [sb [ub|e|]]; cbn [fst] in Eb; rewrite Ea in Eb; [|exact (No _ Eb)..].
    unfold bind at 1. destruct (wbs_may (contract_id H (c_genesis c)) (c_bundles c) sb) as (ws & Hw & P). rewrite Eb in P.
    destruct (mfor (consume_witness_bundle H K _) _ sb) as [sc [uc|e|]]; cbn [fst] in P; [|exists ws; split; [exact Hw|exact P]..].
    exists ws. split; [exact Hw|]. match goal with |- put_all _ _ ?t => replace t with (st_witnesses sc); [exact P|] end. symmetry.
    refine (hold_bind st_witnesses _ _ _ _ _ sc eq_refl); [apply hold_mfor; intros p; apply attachment_witnesses|intros _; apply kit_witnesses].
  - apply No. exact (kit_witnesses k _ s eq_refl).
  - replace (fst ((consume_witness w ;;! ret tt) s)) with (fst (consume_witness w s)) by (unfold bind; destruct (consume_witness w s) as [s3 [b|e|]]; reflexivity).
    destruct (consume_witness_may w s) as [P|P]; [|exact (No _ P)]. exists [w]. split; [intros y [<-|[]]; reflexivity|]. eexists. split; [exact P|reflexivity].
  - apply No. apply (hold_bind st_witnesses _ _ _ (bundle_holds b _) (fun _ => hold_ret _ _ _) s eq_refl).
  - apply No. unfold store_secret_seal, add_secret_seal, bind, get, grown, lift, put, ret. destruct (cpush _ _ _); reflexivity.
  - apply No. unfold set_trust, bind, get, grown, lift, put. destruct (cinsert _ _ _ _); reflexivity.
Qed.

Lemma calls_may l : forall s, exists ws, (forall w, In w ws -> exists x, In x l /\ sh_puts H K x w) /\ put_all ws (st_witnesses s) (st_witnesses (stash_after H K s l)).
Proof.
  induction l as [|x l IH]; intros s; [exists []; split; [intros w []|reflexivity]|].
  destruct (call_may x s) as (w1 & H1 & P1). destruct (IH (fst (stash_call H K x s))) as (w2 & H2 & P2).
  exists (w1 ++ w2). split; [|exact (put_all_app _ _ _ _ _ P1 P2)]. intros w Hw. apply in_app_or in Hw as [Hw|Hw].
  - exists x. split; [left; reflexivity|auto].
  - destruct (H2 w Hw) as (y & Hy & X). exists y. split; [right; exact Hy|exact X].
Qed.

Context {OG : OrdKey GlobalOut}.

(** What is put comes from the call to the stock. *)
Lemma puts_announced c s x w id mt root proof : stash_of H c s x -> sh_puts H K x w -> carries w id mt root proof ->
  announces H K c id mt root proof.
Proof.
  intros So Hp [Iw Ca]. destruct c as [c r|f r|k|y|r after|]; cbn [stash_of] in So; cbn [announces].
  - destruct So as (c' & Er & ->). cbn [sh_puts] in Hp. destruct Hp as (wb & Hb & l & a & Ev & Pa & ->). cbn [sw_anchors] in Ca.
    destruct (anchors_of_has _ _ _ _ st_empty _ _ _ Ev (Pa st_empty) Ca) as (p & Hip & E1 & E2 & E3).
    assert (Hh : holds c' id (fst p) (snd p)). { apply holds_iff. exists wb. split; [exact Hb|]. split; [exact Iw|]. destruct p; exact Hip. }
    destruct (resolve_holds H _ c c' _ _ _ Er Hh) as (b & Hh' & Al). exists (fst p), b.
    split; [exact Hh'|]. split; [exact E1|]. split; [exact E2|]. rewrite (alike_id H _ _ Al) in E3.
    apply resolve_alike in Er as [Ec _]. rewrite Ec in E3. exact E3.
  - destruct So as [->|(p & _ & ->)]; [|destruct Hp]. cbn [sh_puts] in Hp. subst w. split; [exact Iw|exact Ca].
  - subst x. destruct Hp.
  - subst x. destruct Hp.
  - destruct So.
  - destruct So.
Qed.

Lemma has_announced l w mt root proof : has (st_witnesses (sk_stash (stock_after H K sk_empty l))) w mt root proof ->
  exists c, In c l /\ announces H K c w mt root proof.
Proof.
  destruct (after_moved H K l sk_empty) as (_ & _ & lh & Eh & Ph). rewrite Eh. cbn [sk_stash sk_empty].
  destruct (calls_may lh st_empty) as (ws & Hw & P). destruct (put_all_has ws [] _ ltac:(discriminate) P) as [_ Q].
  intros X. apply Q in X as [(x & a & X & _)|(y & Hy & Ca)]; [discriminate|].
  destruct (Hw y Hy) as (x & Hx & Px). destruct (Ph x Hx) as (c & s0 & Hc & So). exists c. split; [exact Hc|].
  eapply puts_announced; eassumption.
Qed.

Lemma by_id_after l : by_id (st_witnesses (sk_stash (stock_after H K sk_empty l))).
Proof.
  destruct (after_moved H K l sk_empty) as (_ & _ & lh & Eh & _). rewrite Eh. cbn [sk_stash sk_empty].
  destruct (calls_may lh st_empty) as (ws & _ & P). exact (proj1 (put_all_has ws [] _ ltac:(discriminate) P)).
Qed.

Lemma has_kept l s w mt root proof : by_id (st_witnesses (sk_stash s)) -> has (st_witnesses (sk_stash s)) w mt root proof ->
  has (st_witnesses (sk_stash (stock_after H K s l))) w mt root proof.
Proof.
  intros Fi X. destruct (after_moved H K l s) as (_ & _ & lh & Eh & _). rewrite Eh.
  destruct (calls_may lh (sk_stash s)) as (ws & _ & P). apply (proj2 (put_all_has ws _ _ Fi P)). left. exact X.
Qed.

(** What a successful call announces is there. *)
Lemma announced_has c s s' w mt root proof : by_id (st_witnesses (sk_stash s)) -> stock_body H K c s = (s', Ok tt) ->
  announces H K c w mt root proof -> has (st_witnesses (sk_stash s')) w mt root proof.
Proof.
  intros Fi E An. destruct c as [c r|f r|k|y|r after|]; cbn [stock_body announces] in *; try destruct An.
  - destruct H0 as (b & Hh & <- & <- & Em). apply accept_ok in E as (c' & Er & _ & _ & Ec).
    destruct (resolve_holds_fwd H _ c c' _ _ _ Er Hh) as (b' & Hh' & Al). rewrite <- (alike_id H _ _ Al) in Em.
    apply resolve_alike in Er as [Eg _].
    destruct (call_puts H K (ShConsignment c') (sk_stash s)) as (ws & Hw & P); [cbn [stash_call]; rewrite Ec; reflexivity|].
    cbn [stash_call] in P. rewrite Ec in P. cbn [fst] in P. apply (proj2 (put_all_has ws _ _ Fi P)). right.
    apply holds_iff in Hh' as (wb & Hb & <- & Hp).
    unfold consume_consignment in Ec. cbv zeta in Ec.
    unfold bind at 1 in Ec. destruct (consume_genesis H _ (sk_stash s)) as [sa [ua|e|]] eqn:Ea; try discriminate.
    unfold bind at 1 in Ec. destruct (mfor (consume_extension H) _ sa) as [sb [ub|e|]] eqn:Eb; try discriminate.
    unfold bind at 1 in Ec. destruct (mfor (consume_witness_bundle H K _) _ sb) as [sc [[]|e|]] eqn:Ew; try discriminate.
    assert (X : exists v, wb_put H K (contract_id H (c_genesis c')) wb v).
    { clear - Ew Hb. revert sb Ew. induction (c_bundles c') as [|y l IH]; intros sb Ew; [destruct Hb|]. cbn [mfor] in Ew. unfold bind in Ew.
      destruct (consume_witness_bundle H K _ y sb) as [s1 [[]|e|]] eqn:E1; try discriminate.
      destruct Hb as [->|Hb]; [|exact (IH Hb _ Ew)]. destruct (wb_puts H K _ _ _ _ E1) as (v & Hv & _). eauto. }
    destruct X as (v & Hv). exists v. split; [apply Hw; cbn [sh_puts]; eauto|].
    destruct Hv as (l & a & Ev & Pa & ->). split; [reflexivity|]. cbn [sw_anchors].
    apply (has_anchors_of _ _ _ _ st_empty (x, b') root Ev (Pa st_empty) Hp). cbn [fst snd]. rewrite Eg. exact Em.
  - subst w. unfold fascia_body in E. unfold bind at 1, on_stash at 1 in E.
    destruct (consume_witness _ (sk_stash s)) as [s1 [b|e|]] eqn:E1; cbn [rmap_err] in E; try discriminate.
    apply consume_witness_puts in E1. destruct (put_has _ _ _ Fi E1) as [F1 Q1].
    assert (X : has (st_witnesses s1) (fascia_witness_id f) mt root proof) by (apply Q1; right; split; [reflexivity|assumption]).
    assert (Fr : forall l t t' u, mfor (fascia_bundle H (fascia_witness_id f) r) l t = (t', u) -> st_witnesses (sk_stash t') = st_witnesses (sk_stash t)).
    { clear. induction l as [|p l IH]; intros t t' u; cbn [mfor]; [intros E; injection E as <- _; reflexivity|]. unfold bind.
      assert (B : forall q q' v, fascia_bundle H (fascia_witness_id f) r p q = (q', v) -> st_witnesses (sk_stash q') = st_witnesses (sk_stash q)).
      { intros q q' v. unfold fascia_bundle. destruct (known_subset (snd p)); [|intros E; injection E as <- _; reflexivity]. unfold ret at 1, bind, on_index, on_state, on_stash.
        destruct (pindex_bundle _ _ _ _ _) as [i [x|x|]]; cbn [rmap_err sk_stash sk_state sk_index]; [|intros E; injection E as <- _; reflexivity ..].
        destruct (update_from_bundle _ _ _ _ _ _) as [i' [x'|x'|]]; cbn [rmap_err sk_stash sk_state sk_index]; [|intros E; injection E as <- _; reflexivity ..].
        pose proof (bundle_holds (snd p) _ (sk_stash q) eq_refl) as W.
        destruct (consume_bundle H (snd p) (sk_stash q)) as [i'' [x''|x''|]]; cbn [rmap_err sk_stash sk_state sk_index fst] in *; intros E; injection E as <- _; exact W. }
      destruct (fascia_bundle _ _ _ p t) as [t1 [x|e|]] eqn:E; apply B in E; [intros E2; apply IH in E2; congruence|intros [= <- _]; exact E ..]. }
    apply Fr in E. cbn [sk_stash] in E. rewrite E. exact X.
Qed.

(** ** The listing *)

Lemma taprets_has s w root proof : msorted (st_witnesses s) ->
  In (w, (root, proof)) (stash_taprets s) <-> has (st_witnesses s) w TapretFirst root proof.
Proof.
  intros So. unfold stash_taprets, has. split.
  - intros Hi. apply filter_map_In in Hi as ([k x] & Hp & E). cbn [fst snd] in E. apply In_mget in Hp; [|exact So].
    exists x. destruct (sw_anchors x) as [t|o|t o] eqn:Ea; try discriminate; apply Some_inj in E; injection E as <- <- <-; exists t; auto.
  - intros (x & a & E & An & <- & <-). apply filter_map_In. exists (w, x). split; [apply mget_In, E|].
    cbn [fst snd]. destruct (sw_anchors x); cbn in An; try discriminate; apply Some_inj in An; subst a; reflexivity.
Qed.
End Calls.
