(** * Passing on what was accepted *)
From Verif Require Import Base StM Core MergeModel MergeSpec MergeProofs ContainerModel ContainerSpec ContainerProofs.
From Verif Require Import PIndexModel PIndexSpec PIndexProofs StateModel StateSpec StateProofs.
From Verif Require Import StashModel StashSpec StashProofs StashAgain StockModel StockProofs StockAgain.
From Verif Require Import ConsignModel ConsignSpec ConsignProofs.
Local Open Scope N_scope.

(** ** Revealing seals keeps ids *)

Definition alike (b b' : Bundle) : Prop :=
  b_method b' = b_method b /\ b_inputs b' = b_inputs b /\ mkeys (b_known b') = mkeys (b_known b).
Definition pair_alike (p p' : EAnchor * Bundle) : Prop := fst p' = fst p /\ alike (snd p) (snd p').
Definition wb_alike (wb wb' : WitnessBundle) : Prop :=
  wb_id wb' = wb_id wb /\ Forall2 pair_alike (anchored_iter (wb_bundles wb)) (anchored_iter (wb_bundles wb')).

Lemma alike_refl b : alike b b.
Proof. repeat split. Qed.
Lemma alike_trans a b c : alike a b -> alike b c -> alike a c.
Proof. intros (A1 & A2 & A3) (B1 & B2 & B3). unfold alike. repeat split; congruence. Qed.
Lemma alike_reveal H seal b : alike b (reveal_bundle H seal b).
Proof. repeat split. cbn [b_known reveal_bundle]. unfold mkeys, mmap. rewrite map_map. apply map_ext. intros [k v]; reflexivity. Qed.

Lemma Forall2_same {A} (R : A -> A -> Prop) l : (forall x, R x x) -> Forall2 R l l.
Proof. intros HR. induction l; constructor; auto. Qed.
Lemma Forall2_then {A} (R : A -> A -> Prop) l1 l2 l3 : (forall x y z, R x y -> R y z -> R x z) ->
  Forall2 R l1 l2 -> Forall2 R l2 l3 -> Forall2 R l1 l3.
Proof.
  intros HR F. revert l3. induction F as [|x y l1 l2 Hxy F IH]; intros l3 G; inversion G; subst; constructor; eauto.
Qed.
Lemma Forall2_In_l {A B} (R : A -> B -> Prop) l l' x : Forall2 R l l' -> In x l -> exists y, In y l' /\ R x y.
Proof.
  induction 1 as [|a b l l' Hab F IH]; [intros []|]. intros [<-|Hin]; [exists b; simpl; auto|].
  destruct (IH Hin) as (y & Hy & Hr). exists y. simpl; auto.
Qed.
Lemma Forall2_In_r {A B} (R : A -> B -> Prop) l l' y : Forall2 R l l' -> In y l' -> exists x, In x l /\ R x y.
Proof.
  induction 1 as [|a b l l' Hab F IH]; [intros []|]. intros [<-|Hin]; [exists a; simpl; auto|].
  destruct (IH Hin) as (x & Hx & Hr). exists x. simpl; auto.
Qed.

Lemma wb_alike_refl wb : wb_alike wb wb.
Proof. split; [reflexivity|]. apply Forall2_same. intros p. split; [reflexivity|apply alike_refl]. Qed.
Lemma wb_alike_trans a b c : wb_alike a b -> wb_alike b c -> wb_alike a c.
Proof.
  intros [A1 A2] [B1 B2]. split; [congruence|]. eapply Forall2_then; [|exact A2|exact B2].
  intros x y z [X1 X2] [Y1 Y2]. split; [congruence|]. eapply alike_trans; eassumption.
Qed.

Lemma wb_reveal_alike H bid seal wb : wb_alike wb (snd (wb_reveal_seal H bid seal wb)).
Proof.
  destruct wb as [w [t|o|t o]]; unfold wb_reveal_seal; cbn [wb_bundles wb_witness].
  - destruct (bundle_id H (cb_bundle t) =? bid); cbn [snd]; [|apply wb_alike_refl].
    split; [reflexivity|]. cbn. constructor; [|constructor]. split; [reflexivity|apply alike_reveal].
  - destruct (bundle_id H (cb_bundle o) =? bid); cbn [snd]; [|apply wb_alike_refl].
    split; [reflexivity|]. cbn. constructor; [|constructor]. split; [reflexivity|apply alike_reveal].
  - destruct (bundle_id H (cb_bundle t) =? bid); cbn [snd].
    + split; [reflexivity|]. cbn. constructor; [split; [reflexivity|apply alike_reveal]|].
      constructor; [split; [reflexivity|apply alike_refl]|constructor].
    + destruct (bundle_id H (cb_bundle o) =? bid); cbn [snd]; [|apply wb_alike_refl].
      split; [reflexivity|]. cbn. constructor; [split; [reflexivity|apply alike_refl]|].
      constructor; [split; [reflexivity|apply alike_reveal]|constructor].
Qed.

Lemma resolve_alike H s c c' : resolve_secrets H s c = Ok c' ->
  c' = set_bundles c (c_bundles c') /\ Forall2 wb_alike (c_bundles c) (c_bundles c').
Proof.
  unfold resolve_secrets, reveal_terminal_seals. set (g := fun acc wb => _).
  assert (T : forall l wb wb',
    rfold (fun wb p => let! s := (Ok (seal_secret H s (snd p)) : result StashError (option Seal)) in
       match s with Some seal => Ok (snd (wb_reveal_seal H (fst p) seal wb)) | None => Ok wb end) wb l = Ok wb' ->
    wb_alike wb wb').
  { induction l as [|p l IH]; intros wb wb'; cbn [rfold rbind]; intros E.
    - apply Ok_inj in E as <-. apply wb_alike_refl.
    - destruct (seal_secret H s (snd p)) as [seal|]; cbn [rbind] in E; [|apply IH; assumption].
      apply IH in E. eapply wb_alike_trans; [apply wb_reveal_alike|exact E]. }
  assert (G : forall l acc bs, rfold g acc l = Ok bs -> exists bs', bs = acc ++ bs' /\ Forall2 wb_alike l bs').
  { induction l as [|wb l IH]; intros acc bs; cbn [rfold].
    - intros Er. apply Ok_inj in Er as <-. exists []. rewrite app_nil_r. auto.
    - unfold g at 1. destruct (rfold _ wb (c_terminals c)) as [wb'|e|] eqn:Ew; cbn [rbind]; try discriminate.
      apply T in Ew. intros Er. apply IH in Er as (bs' & -> & F). exists (wb' :: bs'). rewrite <- app_assoc.
      split; [reflexivity|]. constructor; assumption. }
  destruct (rfold g [] (c_bundles c)) as [bs|e|] eqn:E; cbn [rbind]; intros Er; [|discriminate ..].
  apply Ok_inj in Er as <-. apply G in E as (bs' & -> & F). split; [reflexivity|exact F].
Qed.

Lemma holds_iff c w a b : holds c w a b <-> exists wb, In wb (c_bundles c) /\ wb_id wb = w /\ In (a, b) (anchored_iter (wb_bundles wb)).
Proof.
  unfold holds. split; intros (wb & H1 & H2 & H3); exists wb; (split; [exact H1|]); (split; [exact H2|]); apply anchored_iter_carries, H3.
Qed.

Lemma alike_id H b b' : alike b b' -> bundle_id H b' = bundle_id H b.
Proof. intros (E1 & E2 & _). unfold bundle_id. congruence. Qed.
Lemma alike_known b b' id : alike b b' -> mget id (b_known b') <> None <-> mget id (b_known b) <> None.
Proof.
  intros (_ & _ & E). split; intros N0 E0; apply N0; apply mget_None_notin; apply mget_None_notin in E0; congruence.
Qed.

Lemma resolve_holds H s c c' w a b' : resolve_secrets H s c = Ok c' -> holds c' w a b' ->
  exists b, holds c w a b /\ alike b b'.
Proof.
  intros E Hh. apply resolve_alike in E as [_ F]. apply holds_iff in Hh. destruct Hh as (wb' & Hin & <- & Hp).
  destruct (Forall2_In_r _ _ _ _ F Hin) as (wb & Hin' & Ei & Fp).
  destruct (Forall2_In_r _ _ _ _ Fp Hp) as ([a0 b0] & Hp' & E1 & Al). cbn [fst snd] in *. subst a0.
  exists b0. split; [|exact Al]. apply holds_iff. exists wb. auto.
Qed.
Lemma resolve_holds_fwd H s c c' w a b : resolve_secrets H s c = Ok c' -> holds c w a b ->
  exists b', holds c' w a b' /\ alike b b'.
Proof.
  intros E Hh. apply resolve_alike in E as [_ F]. apply holds_iff in Hh. destruct Hh as (wb & Hin & <- & Hp).
  destruct (Forall2_In_l _ _ _ _ F Hin) as (wb' & Hin' & Ei & Fp).
  destruct (Forall2_In_l _ _ _ _ Fp Hp) as ([a0 b0] & Hp' & E1 & Al). cbn [fst snd] in *. subst a0.
  exists b0. split; [|exact Al]. apply holds_iff. exists wb'. auto.
Qed.

(** ** What accepting leaves in the stash *)

Section Leaves.
Context (H : Hashes) (HC : collision_free H) (K : Merkle).

Lemma consignment_leaves c s s1 : good H s -> cons_ok H c -> consume_consignment H K c s = (s1, Ok tt) ->
  good H s1 /\ forall wb, In wb (c_bundles c) -> has_wb H K (contract_id H (c_genesis c)) wb s1.
Proof.
  intros Go Co E.
  assert (Gd : cons_guarded (careful H) c).
  { split; [apply Co|]. split; [apply Co|]. intros wb p Hw Hp. eapply co_bundles; eauto. }
  assert (G1 : good H s1) by (eapply good_steps; [exact HC|eapply by_consume_consignment; [exact Gd|exact E]|exact Go]).
  split; [exact G1|]. intros wb Hwb.
  destruct Co as [C1 C2 C3 C4 C5 C6]. destruct Gd as (D1 & D2 & D3).
  unfold consume_consignment in E. cbv zeta in E.
  unfold bind at 1 in E. destruct (consume_genesis H _ s) as [sa [ua|e|]] eqn:Ea; try discriminate.
  assert (Sta : steps (careful H) H s sa) by (eapply by_consume_genesis; [exact D1|exact Ea]).
  assert (Ga : good H sa) by (eapply good_steps; eassumption).
  unfold bind at 1 in E. destruct (mfor (consume_extension H) _ sa) as [sb [ub|e|]] eqn:Eb; try discriminate.
  assert (Bb : by_steps (careful H) H (mfor (consume_extension H) (c_extensions c))) by (apply by_mfor; intros x Hx; apply by_consume_extension, D2, Hx).
  assert (Stb : steps (careful H) H sa sb) by (eapply Bb, Eb).
  assert (Gb : good H sb) by (eapply good_steps; eassumption).
  unfold bind at 1 in E. destruct (mfor (consume_witness_bundle H K _) _ sb) as [sc [uc|e|]] eqn:Ec; try discriminate.
  assert (Bc : by_steps (careful H) H (mfor (consume_witness_bundle H K (contract_id H (c_genesis c))) (c_bundles c))).
  { apply by_mfor. intros x Hx. apply by_consume_witness_bundle. intros p Hp. eapply D3; eassumption. }
  assert (Stc : steps (careful H) H sb sc) by (eapply Bc, Ec).
  assert (Gc : good H sc) by (eapply good_steps; eassumption).
  unfold bind at 1 in E. pose proof (replace_attachments_run (c_attachments c) sc) as Ra.
  destruct (mfor _ (c_attachments c) sc) as [sd [ud|e|]] eqn:Ed; try discriminate. subst sd.
  set (sd := attachments_done (c_attachments c) sc) in *.
  assert (Bd : by_steps (careful H) H (mfor (fun p => replace_attachment (fst p) (snd p) ;;! ret tt) (c_attachments c))).
  { apply by_mfor. intros. apply by_bind; [apply by_replace_attachment|intros; apply by_ret]. }
  assert (Std : steps (careful H) H sc sd) by (eapply Bd, Ed).
  assert (Ste : steps (careful H) H sd s1) by (eapply by_consume_kit, E).
  eapply has_wb_kept with (s := sc); [exact HC|intros; eapply C3; eassumption| |exact Gc| |].
  - eapply steps_trans; [exact Std|exact Ste].
  - destruct (kit_success _ _ _ E) as [I _]. destruct (ki_rest _ _ _ I) as (_ & _ & _ & P & _). rewrite P. reflexivity.
  - eapply wbs_leaves; [exact HC|exact C4|exact C3|exact Gb|exact Ec|exact Hwb].
Qed.

(** A guard: bundles of the given id reveal the operation. *)
Definition revealing (bid id : N) : Guard :=
  {| g_op := op_wf; g_ext := op_wf; g_bundle := fun b => bundle_ok H b /\ (bundle_id H b = bid -> mget id (b_known b) <> None) |}.

Definition known_there (bid id : N) (s : MemStash) : Prop :=
  forall b, mget bid (st_bundles s) = Some b -> mget id (b_known b) <> None.

Lemma known_kept bid id s s' : upd (revealing bid id) H s s' -> good H s /\ known_there bid id s -> good H s' /\ known_there bid id s'.
Proof.
  intros U [Go Kn].
  assert (U' : upd (careful H) H s s').
  { destruct U; try (econstructor; eassumption); try (econstructor; [apply H0| |]; eassumption). econstructor; [apply H0|eassumption]. }
  split; [eapply good_kept; eassumption|].
  destruct U; simpl; try exact Kn; intros x E; cbn [st_bundles with_bundles] in E; rewrite mget_insert in E; destruct (keqb _ _) eqn:Ek; eauto;
    apply keqb_true in Ek; apply Some_inj in E; subst x.
  - apply H0. symmetry; exact Ek.
  - assert (Wo : bundle_wf H old) by (eapply go_bundle; eassumption).
    pose proof (merge_bundle_id H _ _ _ H2) as Ei.
    assert (Eo : bundle_id H old = bundle_id H b) by (eapply fi_bundle; [apply Go|eassumption]).
    destruct (merge_bundle_get H HC _ _ _ Wo (proj1 (proj1 H0)) H2) as (_ & _ & _ & _ & Mg).
    specialize (Mg id). assert (No : mget id (b_known old) <> None) by (apply Kn; congruence).
    destruct (mget id (b_known old)) as [x|]; [|congruence].
    destruct (mget id (b_known b)) as [y|]; [destruct Mg as (z & _ & Mg)|]; rewrite Mg; discriminate.
Qed.

Lemma consignment_knows c s s1 r bid id : good H s -> cons_ok H c -> known_there bid id s ->
  (forall wb p, In wb (c_bundles c) -> In p (anchored_iter (wb_bundles wb)) -> bundle_id H (snd p) = bid -> mget id (b_known (snd p)) <> None) ->
  consume_consignment H K c s = (s1, r) -> known_there bid id s1.
Proof.
  intros Go Co Kn Hc E.
  assert (Gd : cons_guarded (revealing bid id) c).
  { split; [apply Co|]. split; [apply Co|]. intros wb p Hw Hp. split; [eapply co_bundles; eauto|eauto]. }
  pose proof (by_consume_consignment (revealing bid id) H K c Gd _ _ _ E) as St.
  apply (steps_keep (revealing bid id) H (fun s => good H s /\ known_there bid id s) s s1 (known_kept bid id) St). auto.
Qed.

(** The anchors merged into a set are in it. *)
Lemma known_union_grows k m : forall c, mget c k <> None \/ mget c m <> None -> mget c (known_union k m) <> None.
Proof.
  unfold known_union. revert k. induction m as [|[x y] m IH]; intros k c Hc; cbn [fold_left fst snd].
  - destruct Hc as [Hc|Hc]; [exact Hc|destruct Hc; reflexivity].
  - apply IH. cbn [mget] in Hc. destruct (mhas x k) eqn:Eh.
    + destruct Hc as [Hc|Hc]; [auto|]. destruct (keqb c x) eqn:Ek; [|auto]. apply keqb_true in Ek. subst c.
      left. apply mhas_true in Eh. destruct Eh as [v Ev]. congruence.
    + rewrite mget_insert. destruct (keqb c x) eqn:Ek; [left; discriminate|]. exact Hc.
Qed.

Definition of_method (m : CloseMethod) (s : AnchorSet) : option Anchor :=
  match m with TapretFirst => tapret_of s | OpretFirst => opret_of s end.

Lemma merge_anchor_knows a b r c : merge_anchor a b = Ok r -> mget c (an_known a) <> None \/ mget c (an_known b) <> None ->
  mget c (an_known r) <> None.
Proof.
  unfold merge_anchor. destruct (negb _); [discriminate|]. destruct (negb _); [discriminate|].
  intros E. apply Ok_inj in E. subst r. cbn [an_known]. apply known_union_grows.
Qed.

Lemma merge_anchor_dbc a b r : merge_anchor a b = Ok r -> an_dbc r = an_dbc a /\ an_dbc r = an_dbc b.
Proof.
  unfold merge_anchor. destruct (an_dbc a =? an_dbc b) eqn:D; cbn [negb]; [|discriminate]. destruct (negb _); [discriminate|].
  intros E. apply Ok_inj in E. subst r. cbn [an_dbc]. apply N.eqb_eq in D. auto.
Qed.

Lemma merge_anchors_knows a b r m an c : merge_anchors a b = Ok r -> of_method m b = Some an -> mget c (an_known an) <> None ->
  exists an', of_method m r = Some an' /\ mget c (an_known an') <> None /\ an_dbc an' = an_dbc an.
Proof.
  intros E Em Hc.
  destruct a as [x|x|x x2], b as [y|y|y y2]; cbn [merge_anchors] in E; destruct m; cbn [of_method tapret_of opret_of] in Em; try discriminate;
    apply Some_inj in Em; subst an;
    repeat match type of E with
           | context [merge_anchor ?p ?q] => let Ex := fresh "Ex" in destruct (merge_anchor p q) eqn:Ex; cbn [rmap rbind] in E; try discriminate
           end;
    apply Ok_inj in E; subst r; cbn [of_method tapret_of opret_of]; eexists; (split; [reflexivity|]); split;
    first [assumption | reflexivity | eapply merge_anchor_knows; [eassumption|auto] | match goal with Ex : merge_anchor _ _ = Ok ?z |- an_dbc ?z = _ => apply (merge_anchor_dbc _ _ _ Ex) end].
Qed.

Lemma anchors_of_method cid l r a : anchor_vals H K cid l = Some r -> (forall s, anchors_of r s = (s, Ok a)) ->
  (length l <= 2)%nat -> forall p, In p l -> exists an, of_method (dp_method (ea_dbc (fst p))) a = Some an /\ mget cid (an_known an) <> None /\
    an_dbc an = dp_data (ea_dbc (fst p)).
Proof.
  intros Ev Ea Hl p Hp. specialize (Ea st_empty). unfold anchors_of in Ea.
  destruct l as [|p1 [|p2 [|]]]; cbn [length] in Hl; try lia; [destruct Hp| |]; cbn [anchor_vals] in Ev.
  - destruct (mk_with _ _ _ _) as [root|]; [|discriminate]. apply Some_inj in Ev. subst r. cbn [rev app] in Ea.
    destruct Hp as [<-|[]].
    destruct (dp_method (ea_dbc (fst p1))); unfold ret in Ea; injection Ea as <-; cbn [of_method tapret_of opret_of];
      eexists; (split; [reflexivity|]); (split; [cbn [an_known mget]; rewrite keqb_refl; discriminate|reflexivity]).
  - destruct (mk_with K (ea_mpc (fst p1)) _ _) as [root1|]; [|discriminate].
    destruct (mk_with K (ea_mpc (fst p2)) _ _) as [root2|]; [|discriminate].
    apply Some_inj in Ev. subst r. cbn [rev app] in Ea.
    destruct (dp_method (ea_dbc (fst p1))) eqn:D1, (dp_method (ea_dbc (fst p2))) eqn:D2; unfold ret, panic in Ea; try discriminate;
      injection Ea as <-; (destruct Hp as [<-|[<-|[]]]); rewrite ?D1, ?D2; cbn [of_method tapret_of opret_of];
      eexists; (split; [reflexivity|]); (split; [cbn [an_known mget]; rewrite keqb_refl; discriminate|reflexivity]).
Qed.

Lemma anchored_iter_short a : (length (anchored_iter a) <= 2)%nat.
Proof. destruct a; cbn; lia. Qed.

(** The witness is in the stash, with an anchor for each of its bundles. *)
Lemma has_wb_anchor cid wb s p : has_wb H K cid wb s -> In p (anchored_iter (wb_bundles wb)) ->
  exists sw an, mget (wb_id wb) (st_witnesses s) = Some sw /\
    of_method (dp_method (ea_dbc (fst p))) (sw_anchors sw) = Some an /\ mget cid (an_known an) <> None /\
    an_dbc an = dp_data (ea_dbc (fst p)).
Proof.
  intros (r & a & Ev & Ea & _ & sw & Ew & _ & Em) Hp.
  destruct (anchors_of_method _ _ _ _ Ev Ea (anchored_iter_short _) _ Hp) as (an & E1 & E2 & Ed).
  cbn [sw_anchors] in Em. destruct (merge_anchors_knows _ _ _ _ _ _ Em E1 E2) as (an' & E3 & E4 & E5).
  exists sw, an'. split; [exact Ew|]. rewrite E5. auto.
Qed.
Lemma has_wb_bundle cid wb s p : has_wb H K cid wb s -> In p (anchored_iter (wb_bundles wb)) ->
  exists b, mget (bundle_id H (snd p)) (st_bundles s) = Some b.
Proof. intros (r & a & _ & _ & Hb & _) Hp. destruct (Hb p Hp) as (st & E & _). eauto. Qed.
End Leaves.

Lemma select_ok s ws : (forall w, In w ws -> exists ord, mget w (ms_witnesses s) = Some ord) ->
  (exists w, In w ws /\ live s (Some w)) -> exists w, select_valid_witness s ws = Ok w.
Proof.
  induction ws as [|w0 ws IH]; intros Hk (w & Hin & L); [destruct Hin|]. cbn [select_valid_witness].
  destruct (Hk w0 (or_introl eq_refl)) as [ord Eo]. unfold is_valid_witness. rewrite Eo. cbn [ok_or rbind].
  destruct (ord_valid ord) eqn:Ev; [eauto|]. apply IH; [intros x Hx; apply Hk; right; exact Hx|].
  exists w. split; [|exact L]. destruct Hin as [->|Hin]; [|exact Hin]. destruct L as (o & Eo' & Na).
  rewrite Eo in Eo'. apply Some_inj in Eo'. subst o. destruct ord; try discriminate. congruence.
Qed.

Lemma new_agreeable H s c bid id : new_bundle s bid -> agreeable H s c bid id.
Proof. intros [Nb Nw]. split; [congruence|]. intros w Fw. destruct (Nw w Fw). Qed.

Lemma accept_pass_on {OG : OrdKey GlobalOut} H K s c r s' bid id :
  collision_free H -> proves_known K -> sound H s -> stock_call_ok H (SkAccept c r) ->
  accept_body H K c r s = (s', Ok tt) -> agreeable H s c bid id -> copies_reveal H c bid id ->
  (exists w a b ord, holds c w a b /\ bundle_id H b = bid /\ r w = Some ord /\ ord <> Archived) ->
  exists t cb, transition s' id = Ok t /\ op_id H t = id /\ client_bundle K s' bid = Ok cb /\
    mget id (b_known (cb_bundle cb)) = Some t /\
    exists w a b, holds c w a b /\ bundle_id H b = bid /\ cb_dbc cb = ea_dbc a.
Proof.
  intros HC PK Sd Ok0 E [Nb Nw] Cr (w & a & b & ord & Hh & Eb & Er & Na).
  apply accept_ok in E as (c' & E0 & E1 & E2 & E3).
  pose proof (resolve_ok _ _ _ _ _ Ok0 E0) as Ok1. destruct Ok1 as (Co & _).
  assert (Cr' : copies_reveal H c' bid id).
  { intros w1 a1 b1 Hh1 Eb1. destruct (resolve_holds _ _ _ _ _ _ _ E0 Hh1) as (b0 & Hh0 & Al).
    rewrite (alike_id _ _ _ Al) in Eb1. destruct (Cr _ _ _ Hh0 Eb1) as [K1 K2]. split; [apply (alike_known _ _ _ Al), K1|].
    rewrite K2. symmetry. apply Al. }
  destruct (resolve_holds_fwd _ _ _ _ _ _ _ E0 Hh) as (b' & Hh' & Al).
  assert (Eb' : bundle_id H b' = bid) by (rewrite (alike_id _ _ _ Al); exact Eb).
  clear Hh Eb Al b. rename b' into b, Hh' into Hh, Eb' into Eb.
  set (cid := op_id H (c_genesis c')) in *.
  destruct (consignment_leaves H HC K _ _ _ (sd_stash _ _ Sd) Co E3) as [G1 Hw].
  assert (Kn : known_there bid id (sk_stash s')).
  { eapply (consignment_knows H HC K c'); [apply (sd_stash _ _ Sd)|exact Co| | |exact E3].
    - intros x Ex. exact (Nb x Ex).
    - intros wb [a1 b1] Hin Hp Ei. cbn [snd] in *. apply (Cr' (wb_id wb) a1 b1); [apply holds_iff; eauto|exact Ei]. }
  assert (W : wf (sk_index s)) by apply Sd.
  destruct (adds_call H (IxConsignment c') _ _ _ E2 W) as (W' & Snd & _ & Cmp). specialize (Cmp tt eq_refl).
  (* the copies of the bundle *)
  assert (Cp : forall w1 a1 b1, holds c' w1 a1 b1 -> bundle_id H b1 = bid ->
     states (sk_index s') (FWitness bid w1) /\ states (sk_index s') (FBundle bid cid) /\
     (forall k t, In (k, t) (b_known b1) -> states (sk_index s') (FOp k bid)) /\
     r w1 <> None /\ mget w1 (ms_witnesses (sk_state s')) = r w1 /\
     (exists st, mget bid (st_bundles (sk_stash s')) = Some st /\ bundle_id H st = bid) /\
     exists sw an, mget w1 (st_witnesses (sk_stash s')) = Some sw /\
       of_method (dp_method (ea_dbc a1)) (sw_anchors sw) = Some an /\ mget cid (an_known an) <> None /\ an_dbc an = dp_data (ea_dbc a1)).
  { intros w1 a1 b1 Hh1 Eb1. apply holds_iff in Hh1 as Hh1'. destruct Hh1' as (wb & Hin & Ew & Hp).
    assert (Hb : In b1 (anchored_bundles (wb_bundles wb))).
    { rewrite anchored_bundles_map. apply in_map_iff. exists (a1, b1). auto. }
    assert (An : forall f, bundle_announces H cid b1 w1 f -> states (sk_index s') f).
    { intros f Hf. apply Cmp. right. left. right. right. right. exists wb, b1. rewrite Ew. auto. }
    split; [apply An; right; left; congruence|]. split; [apply An; left; congruence|]. split.
    { intros k t Hk. apply An. right. right. exists k, t. rewrite Eb1. auto. }
    assert (Tw : touches (StConsignment c' r) w1).
    { exists wb. split; [exact Hin|]. split; [|exact Ew]. destruct (Cr' _ _ _ Hh1 Eb1) as [K1 _].
      destruct (mget id (b_known b1)) as [t|] eqn:Et; [|congruence]. apply mget_In in Et.
      assert (It : In t (wb_known_transitions wb)).
      { unfold wb_known_transitions. apply in_flat_map. exists b1. split; [exact Hb|].
        unfold mvals. apply in_map_iff. exists (id, t). auto. }
      intros En. rewrite En in It. destruct It. }
    cbn [state_call] in E1. destruct (wsets_consignment H c' r _ _ _ E1) as [_ A2]. specialize (A2 tt eq_refl w1 Tw) as [A3 A4].
    split; [exact A3|]. split; [exact A4|]. specialize (Hw wb Hin). split.
    - destruct (has_wb_bundle _ _ _ _ _ _ Hw Hp) as [st Est]. cbn [snd] in Est. rewrite Eb1 in Est. exists st. split; [exact Est|].
      apply (fi_bundle _ _ (go_filed _ _ G1) _ _ Est).
    - destruct (has_wb_anchor _ _ _ _ _ _ Hw Hp) as (sw & an & X1 & X2 & X3). exists sw, an. rewrite <- Ew. auto. }
  (* the operation *)
  destruct (Cp _ _ _ Hh Eb) as (Fw & Fb & Fo & Rw & Sw & (st & Est & Eid) & _).
  destruct (Cr' _ _ _ Hh Eb) as [K1 _]. destruct (mget id (b_known b)) as [tb|] eqn:Etb; [|congruence]. apply mget_In in Etb.
  specialize (Fo _ _ Etb).
  pose proof (Kn _ Est) as Kid. destruct (mget id (b_known st)) as [t|] eqn:Et; [|congruence].
  assert (Ki : known_in s' id bid t) by (split; [exact Fo|]; exists st; auto).
  exists t.
  assert (Tr : transition s' id = Ok t) by (apply transition_ok; exists bid; exact Ki).
  (* the witnesses *)
  destruct Fw as (ws & Ews & Iw). unfold states in Fb.
  assert (Ei : bundle_info (sk_index s') bid = Ok (ws, cid)) by (apply bundle_info_spec; auto).
  assert (Cw : forall x, In x ws -> (exists a1 b1, holds c' x a1 b1 /\ bundle_id H b1 = bid) \/ mget x (ms_witnesses (sk_state s')) = Some Archived).
  { intros x Hx. assert (Fx : states (sk_index s') (FWitness bid x)) by (exists ws; auto).
    apply Snd in Fx. destruct Fx as [Fx|Fx].
    { destruct (Nw _ Fx) as [(a1 & b1 & H1 & H2)|[Ar Nt]].
      - left. destruct (resolve_holds_fwd _ _ _ _ _ _ _ E0 H1) as (b2 & H3 & Al2). exists a1, b2. split; [exact H3|]. rewrite (alike_id _ _ _ Al2). exact H2.
      - right. destruct (wsets_consignment H c' r _ _ _ E1) as [A1 _]. destruct (A1 x) as [->|((wb & Hin & _ & Ew) & _)]; [exact Ar|].
        exfalso. destruct (resolve_alike H _ _ _ E0) as [_ F2]. destruct (Forall2_In_r _ _ _ _ F2 Hin) as (wb0 & Hin0 & Al0).
        apply (Nt wb0 Hin0). rewrite <- Ew. symmetry. apply Al0. }
    left. cbn [announces] in Fx.
    destruct Fx as [Fx|[Fx|[(e & _ & Fx)|(wb & b1 & Hin & Hb & Fx)]]]; [discriminate| | |].
    - destruct Fx as (ty & no & aa & _ & [(? & ? & _ & _ & Fx)|(? & _ & Fx)]); discriminate.
    - destruct Fx as (ty & no & aa & _ & [(? & ? & _ & _ & Fx)|(? & _ & Fx)]); discriminate.
    - destruct Fx as [Fx|[Fx|(k & t1 & _ & [Fx|Fx])]]; [discriminate| |discriminate|].
      + injection Fx as Fx1 Fx2. rewrite anchored_bundles_map in Hb. apply in_map_iff in Hb as ([a1 b2] & Eb2 & Hb).
        cbn [snd] in Eb2. subst b2. exists a1, b1. split; [|symmetry; exact Fx1]. apply holds_iff. exists wb. auto.
      + destruct Fx as (ty & no & aa & _ & [(? & ? & _ & _ & Fx)|(? & _ & Fx)]); discriminate. }
  destruct (select_ok (sk_state s') ws) as [w0 Es].
  { intros x Hx. destruct (Cw x Hx) as [(a1 & b1 & H1 & H2)|Ar]; [|eauto]. destruct (Cp _ _ _ H1 H2) as (_ & _ & _ & R1 & R2 & _).
    destruct (r x) as [o|]; [exists o; exact R2|congruence]. }
  { exists w. split; [exact Iw|]. exists ord. split; [congruence|exact Na]. }
  destruct (select_live _ _ _ Es) as [I0 L0]. destruct (Cw w0 I0) as [(a1 & b1 & H1 & H2)|Ar].
  2: { exfalso. destruct L0 as (o & Eo & No). congruence. }
  destruct (Cp _ _ _ H1 H2) as (_ & _ & _ & _ & _ & _ & (sw & an & X1 & X2 & X3 & X6)).
  destruct (Cr' _ _ _ H1 H2) as [_ X4].
  assert (X5 : b_method b1 = b_method st).
  { unfold bundle_id in H2, Eid. rewrite <- Eid in H2. apply HC in H2. apply H2. }
  rewrite X4, X5 in X2.
  destruct (PK (an_root an) (an_known an) cid X3) as [pr Ep].
  exists {| cb_mpc := pr; cb_dbc := {| dp_method := b_method st; dp_data := an_dbc an |}; cb_bundle := st |}.
  split; [exact Tr|]. split.
  { apply (proj1 (go_bundle _ _ G1 _ _ Est)). exact Et. }
  split.
  2: { split; [exact Et|]. cbn [cb_dbc]. destruct (resolve_holds _ _ _ _ _ _ _ E0 H1) as (b0 & Hh0 & Al0).
       exists w0, a1, b0. split; [exact Hh0|]. split; [rewrite <- (alike_id _ _ _ Al0); exact H2|].
       rewrite X6, <- X5, <- X4. destruct (ea_dbc a1); reflexivity. }
  unfold client_bundle. rewrite Ei. cbn [of_index rmap_err rbind fst snd]. unfold of_stash at 1, stash_bundle. rewrite Est.
  cbn [ok_or rmap_err rbind]. rewrite Es. cbn [of_state rmap_err rbind]. unfold of_stash, stash_witness. rewrite X1.
  cbn [ok_or rmap_err rbind].
  destruct (b_method st) eqn:Em, (sw_anchors sw) as [t0|o0|t0 o0]; cbn [of_method tapret_of opret_of] in X2; try discriminate;
    apply Some_inj in X2; subst an; cbn [rbind fst snd]; rewrite Ep; cbn [ok_or rbind]; unfold client_bundle_new; cbn [dp_method];
    rewrite Em; reflexivity.
Qed.
