(** * From the sender to the receiver: proofs for C62 *)
From Verif Require Import Base StM Core MergeModel MergeSpec MergeProofs ContainerModel ContainerSpec ContainerProofs.
From Verif Require Import PIndexModel PIndexSpec PIndexProofs StateModel StateSpec StateProofs StashModel StashSpec StashProofs StashAgain.
From Verif Require Import StockModel StockProofs StockAgain ConsignModel ConsignSpec ConsignProofs ConsignAccept.
Local Open Scope N_scope.

(** ** What a stash holds is in order *)

Section Fine.
Context (H : Hashes) (HC : collision_free H).

Definition sorted_guard : Guard := {| g_op := op_sorted; g_ext := op_sorted; g_bundle := fun b => bundle_ok H b /\ bundle_sorted b |}.

Record fine (s : MemStash) : Prop := {
  fn_gen : forall id g, mget id (st_geneses s) = Some g -> op_sorted g;
  fn_bundle : forall id b, mget id (st_bundles s) = Some b -> bundle_ok H b /\ bundle_sorted b;
  fn_sigs : forall ct m, mget ct (st_sigs s) = Some m -> msorted m
}.

Lemma merge_sorted a b r : op_sorted a -> merge_op H a b = Ok r -> op_sorted r.
Proof.
  intros [S1 S2] E. destruct (merge_op_shape H HC a b r S1 E) as (_ & Er & _ & _ & _ & W). split; [exact W|]. rewrite Er. exact S2.
Qed.

Lemma fine_kept s s' : upd sorted_guard H s s' -> fine s -> fine s'.
Proof.
  intros U [G B S]. constructor.
  - destruct U; simpl; try exact G; intros k x E; rewrite mget_insert in E; destruct (keqb _ _); eauto; apply Some_inj in E; subst x.
    + exact H0.
    + eapply merge_sorted; [|exact H2]. eauto.
  - destruct U; simpl; try exact B; intros k x E; rewrite mget_insert in E; destruct (keqb _ _); eauto; apply Some_inj in E; subst x.
    + exact H0.
    + destruct (B _ _ H1) as [[W L] So]. destruct H0 as [[W' L'] So'].
      destruct (merge_bundle_get H HC old b b' W W' H2) as (_ & _ & Wr & Lr & Hg). split; [split; assumption|].
      intros o Ho. apply In_mvals in Ho; [|apply Wr]. destruct Ho as (k0 & Ek). specialize (Hg k0). rewrite Ek in Hg.
      destruct (mget k0 (b_known old)) as [x|] eqn:Ex; [|destruct (mget k0 (b_known b)); discriminate].
      assert (Sx : op_sorted x) by (apply So, In_mvals; [apply W|eauto]).
      destruct (mget k0 (b_known b)) as [y|] eqn:Ey.
      * destruct Hg as (z & Ez & Ez'). apply Some_inj in Ez'. subst z. eapply merge_sorted; eassumption.
      * apply Some_inj in Hg. subst o. exact Sx.
  - destruct U; simpl; try exact S. intros k x E. rewrite mget_insert in E. destruct (keqb k c) eqn:Ek; [|eauto].
    apply Some_inj in E. subst x. destruct (mget c (st_sigs s)) as [old|] eqn:Eo; [apply (H1 old eq_refl); eauto|apply H2; reflexivity].
Qed.

Lemma fine_after {OG : OrdKey GlobalOut} K l : (forall c, In c l -> stock_call_ok H c) ->
  fine (sk_stash (stock_after H K sk_empty l)).
Proof.
  intros Hl. destruct (after_moved H K l sk_empty) as (_ & _ & (l3 & -> & P3)).
  apply (calls_keep sorted_guard H K fine).
  - apply fine_kept.
  - intros a id t [F1 F2 F3]. constructor; assumption.
  - intros x Hx. destruct (P3 x Hx) as (c & s0 & Hc & Hs). specialize (Hl c Hc).
    destruct c as [c r|f r|k|y|r after|]; cbn [stash_of] in Hs; try contradiction; try (subst x; exact I).
    + destruct Hs as (c' & Er & ->). apply (resolve_ok _ _ _ _ _ Hl) in Er as (Co & Sg & Se & Sb).
      split; [exact Sg|]. split; [exact Se|]. intros wb p Hw Hp. split; [exact (co_bundles _ _ Co wb p Hw Hp)|].
      intros o Ho. apply (Sb wb o Hw). unfold wb_known_transitions. apply in_flat_map. exists (snd p).
      split; [|exact Ho]. rewrite anchored_bundles_map. apply in_map. exact Hp.
    + destruct Hs as [->|(p & Hp & ->)]; [exact I|]. exact (Hl p Hp).
  - constructor; discriminate.
Qed.

Lemma reachable_fine {OG : OrdKey GlobalOut} K s : reachable H K s -> fine (sk_stash s).
Proof. intros (l & Hl & ->). apply fine_after, Hl. Qed.
End Fine.

(** ** What is exported is in order *)

Section Exported.
Context (H : Hashes) (K : Merkle) (s : Stock).

Lemma wb_with_methods xw cb wb : dp_method (cb_dbc cb) = b_method (cb_bundle cb) ->
  @wb_with ConsignError xw cb = Ok wb -> methods_ok (wb_bundles wb).
Proof.
  intros Em. unfold wb_with, anchored_from. rewrite !(new_same cb Em).
  destruct (dp_method (cb_dbc cb)) eqn:Ed; cbn [rbind rmap]; intros E; apply Ok_inj in E; subst wb; cbn; congruence.
Qed.
Lemma into_double_methods wb cb wb' : dp_method (cb_dbc cb) = b_method (cb_bundle cb) -> methods_ok (wb_bundles wb) ->
  into_double wb cb = Ok wb' -> methods_ok (wb_bundles wb').
Proof.
  intros Em Mo. unfold into_double. rewrite (new_same cb Em).
  destruct (wb_bundles wb) as [t|o|t o]; destruct (dp_method (cb_dbc cb)) eqn:Ed; cbn [rbind]; try discriminate;
    intros E; apply Ok_inj in E; subst wb'; cbn in *; split; congruence.
Qed.

Lemma group_methods l : (forall cb, In cb l -> dp_method (cb_dbc cb) = b_method (cb_bundle cb)) ->
  forall acc acc', (forall w wb, mget w acc = Some wb -> methods_ok (wb_bundles wb)) ->
  rfold (group_step K H s) acc l = Ok acc' -> forall w wb, mget w acc' = Some wb -> methods_ok (wb_bundles wb).
Proof.
  induction l as [|cb l IH]; intros Hl acc acc' Ha; cbn [rfold].
  - intros E. apply Ok_inj in E. subst acc'. exact Ha.
  - destruct (group_step K H s acc cb) as [acc1|e|] eqn:Es; cbn [rbind]; try discriminate.
    apply IH; [intros; apply Hl; right; assumption|]. unfold group_step in Es.
    destruct (of_index _) as [info|e|]; cbn [rbind] in Es; try discriminate.
    destruct (of_state _) as [w0|e|]; cbn [rbind] in Es; try discriminate.
    destruct (of_stash _) as [sw|e|]; cbn [rbind] in Es; try discriminate.
    assert (Em := Hl cb (or_introl eq_refl)).
    destruct (mget w0 acc) as [old|] eqn:Eo.
    + destruct (into_double old cb) as [wb|e|] eqn:Ed; cbn [rmap_err rbind] in Es; try discriminate.
      apply Ok_inj in Es. subst acc1. intros w wb' E. rewrite mget_insert in E. destruct (keqb _ _); [|eauto].
      apply Some_inj in E. subst wb'. eapply into_double_methods; eauto.
    + destruct (wb_with (sw_public sw) cb) as [wb|e|] eqn:Ed; cbn [rbind] in Es; try discriminate.
      apply Ok_inj in Es. subst acc1. intros w wb' E. rewrite mget_insert in E. destruct (keqb _ _); [|eauto].
      apply Some_inj in E. subst wb'. eapply wb_with_methods; eauto.
Qed.

Lemma sigs_sorted st l : forall m, msorted m -> msorted (fold_left (fun m c => add_sig st c m) l m).
Proof.
  induction l as [|c l IH]; intros m Sm; [exact Sm|]. cbn [fold_left]. apply IH. unfold add_sig.
  destruct (sigs_for st c); [apply minsert_sorted|]; exact Sm.
Qed.

Lemma exported_ok (HC : collision_free H) fuel transfer cid outputs secret c :
  sound H s -> fine H (sk_stash s) -> consign H K fuel s transfer cid outputs secret = Some (Ok c) ->
  (forall r, stock_call_ok H (SkAccept c r)) /\ msorted (c_terminals c) /\
  (forall wb, In wb (c_bundles c) -> methods_ok (wb_bundles wb)).
Proof.
  intros Sd Fn. unfold consign. destruct (collect H K s cid outputs secret) as [co|e|] eqn:Ec; try discriminate.
  destruct (collect_ok _ _ _ _ _ _ _ Sd Ec) as (outs & Eo & C).
  destruct (walk H K s cid fuel (start_ids (cl_transitions co)) (cl_bundles co)) as [[m|e|]|] eqn:Ew; try discriminate.
  intros E. injection E as E.
  destruct (walk_ok H K s cid fuel Sd _ _ _ (cd_entries _ _ _ _ _ _ _ C) Ew) as (W1 & W2 & W3).
  pose proof E as E0. unfold assemble in E0.
  destruct (of_stash (stash_genesis _ _)) as [g|e|] eqn:Eg; cbn [rbind] in E0; try discriminate.
  destruct (of_stash (stash_schema _ _)) as [si|e|] eqn:Ei; cbn [rbind] in E0; try discriminate.
  destruct (ifaces_of _ _) as [ifs|e|] eqn:Ef; cbn [rbind] in E0; try discriminate.
  destruct (rfold (group_step K H s) [] (mvals m)) as [gr|e|] eqn:Er; cbn [rbind] in E0; try discriminate.
  destruct (negb _) in E0; [discriminate|]. destruct (negb _) in E0; [discriminate|].
  destruct (extract _ _ _) as [ex|e|] eqn:Ee; cbn [rbind] in E0; try discriminate.
  destruct (negb _) in E0; [discriminate|]. destruct (negb _) in E0; [discriminate|].
  apply Ok_inj in E0.
  assert (Em : forall cb, In cb (mvals m) -> dp_method (cb_dbc cb) = b_method (cb_bundle cb)).
  { intros cb Hin. apply In_mvals in Hin; [|apply W1]. destruct Hin as (bid & Em). apply W1 in Em.
    destruct (client_bundle_ok _ _ _ _ Em) as (_ & _ & w & _ & _ & _ & X). exact X. }
  assert (Gr : grouped K s (mvals m) gr).
  { apply (group_all H K s (mvals m) Sd (entries_made _ _ _ W1) [] [] gr (grouped_empty _ _)). exact Er. }
  assert (Gm := group_methods (mvals m) Em [] gr ltac:(discriminate) Er).
  assert (Hb : forall wb, In wb (c_bundles c) -> mget (wb_id wb) gr = Some wb).
  { intros wb Hin. subst c. cbn [c_bundles] in Hin. unfold mvals in Hin. apply in_map_iff in Hin as ([w wb'] & <- & Hin). cbn [snd].
    assert (E1 : mget w gr = Some wb') by (apply In_mget; [apply Gr|exact Hin]).
    destruct (gr_witness _ _ _ _ Gr _ _ E1) as [-> _]. exact E1. }
  assert (Ht : c_terminals c = cl_terminals co) by (subst c; reflexivity).
  assert (Hg : mget cid (st_geneses (sk_stash s)) = Some (c_genesis c)).
  { subst c. cbn [c_genesis]. unfold of_stash, stash_genesis in Eg.
    destruct (mget cid (st_geneses (sk_stash s))); cbn in Eg; [|discriminate]. apply Ok_inj in Eg. congruence. }
  assert (Hbd : forall wb p, In wb (c_bundles c) -> In p (anchored_iter (wb_bundles wb)) ->
     bundle_ok H (snd p) /\ bundle_sorted (snd p)).
  { intros wb [a b] Hw Hp. apply Hb in Hw. apply anchored_iter_carries in Hp.
    destruct (gr_from _ _ _ _ Gr _ _ _ _ Hw Hp) as (cb & _ & _ & -> & Gt).
    destruct (goes_to_anchored _ _ _ _ Gt) as (bid & _ & An). exact (fn_bundle _ _ Fn _ _ (proj1 An)). }
  split; [|split].
  - intros r. cbn [stock_call_ok]. replace (c_extensions c) with (@nil Operation) by (subst c; reflexivity).
    destruct (fn_gen _ _ Fn _ _ Hg) as [G1 G2].
    split; [|split; [split; assumption|split; [intros e []|]]].
    + constructor.
      * exact G1.
      * replace (c_extensions c) with (@nil Operation) by (subst c; reflexivity). intros e [].
      * intros wb p Hw Hp. exact (proj1 (Hbd wb p Hw Hp)).
      * replace (c_bundles c) with (mvals gr) by (subst c; reflexivity). unfold mvals. rewrite map_map.
        assert (X : map (fun x => wb_id (snd x)) gr = mkeys gr).
        { unfold mkeys. apply map_ext_in. intros [w wb] Hin. cbn [fst snd]. apply In_mget in Hin; [|apply Gr].
          apply (gr_witness _ _ _ _ Gr _ _ Hin). }
        rewrite X. apply msorted_NoDup, Gr.
      * replace (c_signatures c) with (fold_left (fun m c => add_sig (sk_stash s) c m) (contents_of cid (g_schema g) ifs) [])
          by (subst c; reflexivity). apply sigs_sorted, msorted_nil.
      * intros x sigs Hin.
        assert (Sx : msorted (c_signatures c)).
        { replace (c_signatures c) with (fold_left (fun m c => add_sig (sk_stash s) c m) (contents_of cid (g_schema g) ifs) [])
          by (subst c; reflexivity). apply sigs_sorted, msorted_nil. }
        apply In_mget in Hin; [|exact Sx].
        destruct (assemble_ok _ _ _ _ _ _ _ _ Sd W1 E) as (_ & _ & _ & _ & A5 & _).
        apply (df_sigs _ _ _ A5) in Hin. eapply fn_sigs; [exact Fn|apply Hin].
    + intros wb o Hw Ho. unfold wb_known_transitions in Ho. apply in_flat_map in Ho as (b & Hb' & Ho).
      rewrite anchored_bundles_map in Hb'. apply in_map_iff in Hb' as (p & <- & Hp). apply (Hbd wb p Hw Hp). exact Ho.
  - rewrite Ht. apply C.
  - intros wb Hw. exact (Gm _ _ (Hb wb Hw)).
Qed.
End Exported.

(** ** What the receiver finds *)

Section Received.
Context {OG : OrdKey GlobalOut} (H : Hashes) (HC : collision_free H) (K : Merkle).

Lemma mfor_each {S X A} (f : A -> M S X unit) l s s' x : mfor f l s = (s', Ok tt) -> In x l ->
  exists a b, f x a = (b, Ok tt).
Proof.
  revert s. induction l as [|y l IH]; intros s E Hin; [destruct Hin|]. cbn [mfor] in E. unfold bind in E.
  destruct (f y s) as [s1 [[]|e|]] eqn:E1; try discriminate. destruct Hin as [->|Hin]; [eauto|exact (IH _ E Hin)].
Qed.

Lemma process_outputs l opid ty w : forall outs outs', process outs l opid ty w = Ok outs' ->
  forall no seal st, nth_error l no = Some (Revealed seal st) -> exists out, assign_output w seal = Some out.
Proof.
  unfold process. intros outs outs' E no seal st Hn.
  assert (Hin : In (no, Revealed seal st) (enumerate l)) by (apply enumerate_In; exact Hn).
  revert outs E Hin. generalize (enumerate l). intros el. induction el as [|[i a] el IH]; intros outs E Hin; [destruct Hin|].
  cbn [rfold] in E. match type of E with rbind ?x _ = _ => destruct x as [outs1|e|] eqn:E1; cbn [rbind] in E; try discriminate end.
  destruct Hin as [Hx|Hin]; [|exact (IH _ E Hin)]. injection Hx as -> ->. cbn [snd fst to_revealed] in E1.
  destruct (assign_output w seal) as [out|]; [eauto|discriminate].
Qed.

Lemma assignments_outputs w opid a : forall cs cs', add_assignments cs w opid a = Ok cs' ->
  forall ty ta no seal st, In (ty, ta) a -> nth_error (ta_list ta) no = Some (Revealed seal st) ->
  exists out, assign_output w seal = Some out.
Proof.
  unfold add_assignments. induction a as [|[ty0 ta0] a IH]; intros cs cs' E ty ta no seal st Hin Hn; [destruct Hin|].
  cbn [rfold fst snd] in E.
  destruct (process (cs_outs (ta_kind ta0) cs) (ta_list ta0) opid ty0 w) as [outs|e|] eqn:E1; cbn [rbind] in E; try discriminate.
  destruct Hin as [Hx|Hin]; [injection Hx as -> ->; exact (process_outputs _ _ _ _ _ _ E1 _ _ _ Hn)|].
  exact (IH _ _ E _ _ _ _ _ Hin Hn).
Qed.

(** A consignment is accepted into the state only if its revealed seals are on the chain
    of their witness. *)
Lemma accepted_outputs c r s s' wb t ty ta no seal st :
  state_call H (StConsignment c r) s = (s', Ok tt) ->
  In wb (c_bundles c) -> In t (wb_known_transitions wb) ->
  In (ty, ta) (op_assigns t) -> nth_error (ta_list ta) no = Some (Revealed seal st) ->
  exists out, seal_output (Some (wb_id wb)) seal out.
Proof.
  intros E Hw Ht Hta Hn. cbn [state_call] in E. unfold update_from_consignment in E.
  unfold bind at 1 in E. destruct (st_register _ _ _ s) as [s1 [[]|e|]]; try discriminate.
  unfold bind at 1 in E. destruct (mfor _ (c_bundles c) s1) as [s2 [[]|e|]] eqn:E2; try discriminate.
  destruct (mfor_each _ _ _ _ _ E2 Hw) as (a & b & E3). destruct (mfor_each _ _ _ _ _ E3 Ht) as (a' & b' & E4).
  unfold bind at 1 in E4. destruct (resolve r (wb_id wb) a') as [s3 [ord|e|]]; try discriminate.
  unfold add_transition, bind in E4. destruct (set_witness _ _ s3) as [s4 [[]|e|]]; try discriminate.
  unfold on_contract in E4. destruct (mget _ (ms_contracts s4)) as [cs|]; [|discriminate].
  unfold add_operation in E4. destruct (add_globals _ _ _ _) as [cs1|e|]; cbn [rbind] in E4; try discriminate.
  destruct (add_assignments _ _ _ _) as [cs2|e|] eqn:E5; try discriminate.
  destruct (assignments_outputs _ _ _ _ _ E5 _ _ _ _ _ Hta Hn) as (out & Eo). exists out. apply assign_output_spec. exact Eo.
Qed.

(** What resolving makes of a bundle listed with a seal which is known *)
Lemma resolved_bundle st c c' x w a b :
  msorted (c_terminals c) -> (forall wb, In wb (c_bundles c) -> methods_ok (wb_bundles wb)) ->
  seal_secret H st (h_seal H x) = Some x -> resolve_secrets H st c = Ok c' ->
  holds c w a b -> mget (bundle_id H b) (c_terminals c) = Some (h_seal H x) ->
  exists wb, In wb (c_bundles c') /\ wb_id wb = w /\ In (a, reveal_bundle H x b) (anchored_iter (wb_bundles wb)).
Proof.
  intros Mt Mo Sx R Hh Et. apply holds_iff in Hh. destruct Hh as (wb & Hin & <- & Hp).
  destruct (reveal_terminal_seals_ok H _ c c' HC Mt Mo R) as [_ F].
  destruct (Forall2_In_l _ _ _ _ F Hin) as (wb' & Hin' & E1 & E2). exists wb'. split; [exact Hin'|].
  split; [unfold wb_id; rewrite E1; reflexivity|].
  assert (Rv : forall t t', terminal_revealed H (fun secret => Ok (seal_secret H st secret) : result StashError _) (c_terminals c) t t' ->
             t = b -> t' = reveal_bundle H x b).
  { intros t t' T ->. unfold terminal_revealed in T. rewrite Et, Sx in T. exact T. }
  destruct (wb_bundles wb) as [t|o|t o], (wb_bundles wb') as [t'|o'|t' o']; try contradiction; cbn [anchored_rel anchored_iter] in *;
    unfold client_rel in *.
  - destruct E2 as (A & B & C). destruct Hp as [Hp|[]]. injection Hp as <- Eb. apply Rv in C; [|exact Eb]. left. unfold cb_anchor. rewrite A, B, C. reflexivity.
  - destruct E2 as (A & B & C). destruct Hp as [Hp|[]]. injection Hp as <- Eb. apply Rv in C; [|exact Eb]. left. unfold cb_anchor. rewrite A, B, C. reflexivity.
  - destruct E2 as ((A & B & C) & (A' & B' & C')). destruct Hp as [Hp|[Hp|[]]]; injection Hp as <- Eb.
    + apply Rv in C; [|exact Eb]. left. unfold cb_anchor. rewrite A, B, C. reflexivity.
    + apply Rv in C'; [|exact Eb]. right; left. unfold cb_anchor. rewrite A', B', C'. reflexivity.
Qed.

Lemma reveal_output x t ty ta no st :
  In (ty, ta) (op_assigns t) -> nth_error (ta_list ta) no = Some (ConfidentialSeal (h_seal H x) st) ->
  exists ta', In (ty, ta') (op_assigns (reveal_op H x t)) /\ ta_kind ta' = ta_kind ta /\
    nth_error (ta_list ta') no = Some (Revealed x st).
Proof.
  intros Hta Hn. exists (reveal_typed H x ta). split; [|split; [reflexivity|]].
  - cbn [op_assigns reveal_op set_assigns]. unfold mmap. apply in_map_iff. exists (ty, ta). auto.
  - cbn [ta_list reveal_typed]. rewrite nth_error_map, Hn. cbn. rewrite N.eqb_refl. reflexivity.
Qed.

Lemma after_state l s : s = stock_after H K sk_empty l -> (forall d, In d l -> stock_call_ok H d) ->
  exists ls, sk_state s = state_after H ls /\ history_sorted H ls.
Proof.
  intros -> Hl. destruct (after_moved H K l sk_empty) as (_ & (ls & Es & Ps) & _).
  exists ls. split; [exact Es|]. eapply state_of_sorted; eassumption.
Qed.

(** Two views of an operation reveal the same seal for an output. *)
Lemma revealed_seal_same t o ow ty ta no x st b k out : op_sorted t -> op_sorted o ->
  In (ty, ta) (op_assigns t) -> nth_error (ta_list ta) no = Some (Revealed x st) ->
  reveals H o ow k b -> oa_opout b = {| oo_op := op_id H t; oo_ty := ty; oo_no := N.of_nat no |} -> oa_seal b = out ->
  seal_output (oa_witness b) x out.
Proof.
  intros [S _] [S' _] Hin Hn (ty' & ta' & no' & seal' & st' & Hin' & Hk' & Hn' & Ho' & E1' & E2' & E3') So <-.
  rewrite E1' in So. injection So as Ei Et En. apply Nat2N.inj in En. subst no' ty'. symmetry in Ei.
  pose proof (same_id_conceal _ _ _ HC Ei) as Ec. apply (f_equal op_assigns) in Ec. simpl in Ec.
  apply In_mget in Hin; [|exact S]. apply In_mget in Hin'; [|exact S'].
  assert (Em : mget ty (conceal_assigns H (op_assigns t)) = mget ty (conceal_assigns H (op_assigns o))) by congruence.
  unfold conceal_assigns in Em. rewrite !mget_mmap, Hin, Hin' in Em. simpl in Em. apply Some_inj in Em. injection Em as Ek El.
  assert (En : nth_error (map (conceal H) (ta_list ta)) no = nth_error (map (conceal H) (ta_list ta')) no) by congruence.
  rewrite (map_nth_error _ _ _ Hn), (map_nth_error _ _ _ Hn') in En. simpl in En. apply Some_inj in En.
  injection En as Es _. apply HC in Es. rewrite E3', Es. exact Ho'.
Qed.

(** An accepted transition: what it reveals is in the state. *)
Lemma accepted_state c r s s' wb t ty ta no x st :
  reachable H K s -> stock_call_ok H (SkAccept c r) ->
  state_call H (StConsignment c r) (sk_state s) = (s', Ok tt) ->
  In wb (c_bundles c) -> In t (wb_known_transitions wb) ->
  In (ty, ta) (op_assigns t) -> nth_error (ta_list ta) no = Some (Revealed x st) ->
  let cid := op_id H (c_genesis c) in
  r (wb_id wb) <> None /\ mget (wb_id wb) (ms_witnesses s') = r (wb_id wb) /\
  exists out b mc, seal_output (Some (wb_id wb)) x out /\
    oa_opout b = {| oo_op := op_id H t; oo_ty := ty; oo_no := N.of_nat no |} /\ oa_seal b = out /\ oa_state b = st /\
    (s_txid x = None -> oa_witness b = Some (wb_id wb)) /\
    contract_state s' cid = Ok mc /\ sstates s' (SFOut cid (ta_kind ta) b) /\ (In b (outs_all (ta_kind ta) mc) <-> live s' (oa_witness b)).
Proof.
  intros (l & Hl & Es) Ok E Hw Ht Hta Hn cid.
  destruct (accepted_outputs _ _ _ _ _ _ _ _ _ _ _ E Hw Ht Hta Hn) as (out & Ho).
  destruct (after_state l s Es Hl) as (ls & El & Hs).
  assert (E' : s' = state_after H (ls ++ [StConsignment c r])).
  { unfold state_after. rewrite state_calls_app. fold (state_after H ls). rewrite <- El. cbn [state_calls fold_left]. rewrite E. reflexivity. }
  assert (Hs' : history_sorted H (ls ++ [StConsignment c r])).
  { intros y cid0 ow o Hy Hi. apply in_app_iff in Hy as [Hy|[<-|[]]]; [exact (Hs _ _ _ _ Hy Hi)|].
    destruct Ok as (_ & Sg & Se & Sb). destruct Hi as (_ & [(_ & ->)|[(wb' & Hw' & Ho' & _)|(w & Ho' & _)]]); eauto. }
  pose proof E as W. cbn [state_call] in W. apply wsets_consignment in W. destruct W as [_ W].
  specialize (W tt eq_refl (wb_id wb)). split; [|split].
  1,2: apply W; exists wb; split; [exact Hw|split; [|reflexivity]]; intros En; rewrite En in Ht; exact Ht.
  set (ow := OWTransition (wb_id wb) (op_ty t)).
  set (a := {| oa_opout := {| oo_op := op_id H t; oo_ty := ty; oo_no := N.of_nat no |};
               oa_seal := out; oa_state := st; oa_witness := Some (wb_id wb) |}).
  assert (Ra : reveals H t ow (ta_kind ta) a) by (exists ty, ta, no, x, st; cbn; auto 10).
  assert (Im : imports H (StConsignment c r) cid ow t) by (split; [reflexivity|right; left; exists wb; auto]).
  assert (Wf : swf (sk_state s)) by (rewrite El; apply safter_wf).
  destruct (adds_state_call H (StConsignment c r) _ _ _ E Wf) as (Wf' & _ & _ & _ & C).
  destruct (C tt eq_refl (SFOut cid (ta_kind ta) a)) as (b & (B1 & B2) & Hb); [exists ow, t; auto|].
  assert (Hc : exists mc, contract_state s' cid = Base.Ok mc).
  { apply contract_state_ok. apply (C tt eq_refl (SFContract cid)). exists c, r. auto. }
  destruct Hc as [mc Ec]. exists out, b, mc. cbn [oa_opout oa_seal a] in B1, B2.
  pose proof Hb as Hb'. rewrite E' in Hb'. apply safter_sound in Hb'. destruct Hb' as (call & Hin & ow' & o' & Im' & Rb).
  destruct (reveals_fun H t o' ow ow' (ta_kind ta) (ta_kind ta) a b HC) as (_ & Est & _ & seal & (ty0 & ta0 & no0 & st0 & Hta0 & Hn0) & So & So').
  { eapply Hs'; [apply in_or_app; right; left; reflexivity|exact Im]. }
  { eapply Hs'; [exact Hin|exact Im']. }
  { exact Ra. }
  { exact Rb. }
  { split; [symmetry; exact B1|symmetry; exact B2]. }
  split; [exact Ho|]. split; [exact B1|]. split; [exact B2|]. split; [symmetry; exact Est|]. split; [|split; [exact Ec|]].
  - intros Tx. rewrite <- (seal_output_witness (Some (wb_id wb)) (oa_witness b) x out Tx Ho); [reflexivity|].
    eapply (revealed_seal_same t o' ow' _ _ _ _ _ b); [| |exact Hta|exact Hn|exact Rb|exact B1|exact B2].
    + eapply Hs'; [apply in_or_app; right; left; reflexivity|exact Im].
    + eapply Hs'; [exact Hin|exact Im'].
  - split; [exact Hb|]. rewrite (outs_all_spec _ _ _ _ _ Wf' Ec). tauto.
Qed.

(** The same of an accepted genesis *)
Lemma accepted_genesis c r s s' ty ta no x st :
  reachable H K s -> stock_call_ok H (SkAccept c r) ->
  state_call H (StConsignment c r) (sk_state s) = (s', Ok tt) ->
  In (ty, ta) (op_assigns (c_genesis c)) -> nth_error (ta_list ta) no = Some (Revealed x st) ->
  let cid := op_id H (c_genesis c) in
  exists out b mc, seal_output None x out /\
    oa_opout b = {| oo_op := cid; oo_ty := ty; oo_no := N.of_nat no |} /\ oa_seal b = out /\ oa_state b = st /\
    contract_state s' cid = Ok mc /\ sstates s' (SFOut cid (ta_kind ta) b) /\ (In b (outs_all (ta_kind ta) mc) <-> live s' (oa_witness b)).
Proof.
  intros (l & Hl & Es) Ok E Hta Hn cid.
  assert (Ho : exists out, seal_output None x out).
  { pose proof E as E0. cbn [state_call] in E0. unfold update_from_consignment, bind at 1 in E0.
    destruct (st_register H (c_schema c) (c_genesis c) (sk_state s)) as [s1 [[]|e|]] eqn:E1; try discriminate E0.
    unfold st_register, bind at 1, get in E1. unfold bind at 1 in E1.
    match type of E1 with context [match ?q with (_, _) => _ end] => destruct q as [s2 [[]|e|]] eqn:E2; try discriminate E1 end.
    unfold add_genesis, on_contract in E1. destruct (mget _ (ms_contracts s2)) as [cs|]; [|discriminate].
    unfold add_operation in E1. destruct (add_globals _ _ _ _) as [cs1|e|]; cbn [rbind] in E1; try discriminate.
    destruct (add_assignments _ _ _ _) as [cs2|e|] eqn:E5; try discriminate.
    destruct (assignments_outputs _ _ _ _ _ E5 _ _ _ _ _ Hta Hn) as (out & Eo). exists out. apply assign_output_spec. exact Eo. }
  destruct Ho as (out & Ho). destruct (after_state l s Es Hl) as (ls & El & Hs).
  assert (E' : s' = state_after H (ls ++ [StConsignment c r])).
  { unfold state_after. rewrite state_calls_app. fold (state_after H ls). rewrite <- El. cbn [state_calls fold_left]. rewrite E. reflexivity. }
  assert (Hs' : history_sorted H (ls ++ [StConsignment c r])).
  { intros y cid0 ow o Hy Hi. apply in_app_iff in Hy as [Hy|[<-|[]]]; [exact (Hs _ _ _ _ Hy Hi)|].
    destruct Ok as (_ & Sg & Se & Sb). destruct Hi as (_ & [(_ & ->)|[(wb' & Hw' & Ho' & _)|(w & Ho' & _)]]); eauto. }
  set (a := {| oa_opout := {| oo_op := cid; oo_ty := ty; oo_no := N.of_nat no |};
               oa_seal := out; oa_state := st; oa_witness := None |}).
  assert (Ra : reveals H (c_genesis c) OWGenesis (ta_kind ta) a) by (exists ty, ta, no, x, st; cbn; auto 10).
  assert (Im : imports H (StConsignment c r) cid OWGenesis (c_genesis c)) by (split; [reflexivity|left; auto]).
  assert (Wf : swf (sk_state s)) by (rewrite El; apply safter_wf).
  destruct (adds_state_call H (StConsignment c r) _ _ _ E Wf) as (Wf' & _ & _ & _ & C).
  destruct (C tt eq_refl (SFOut cid (ta_kind ta) a)) as (b & (B1 & B2) & Hb); [exists OWGenesis, (c_genesis c); auto|].
  assert (Hc : exists mc, contract_state s' cid = Base.Ok mc).
  { apply contract_state_ok. apply (C tt eq_refl (SFContract cid)). exists c, r. auto. }
  destruct Hc as [mc Ec]. exists out, b, mc. cbn [oa_opout oa_seal a] in B1, B2.
  pose proof Hb as Hb'. rewrite E' in Hb'. apply safter_sound in Hb'. destruct Hb' as (call & Hin & ow' & o' & Im' & Rb).
  destruct (reveals_fun H (c_genesis c) o' OWGenesis ow' (ta_kind ta) (ta_kind ta) a b HC) as (_ & Est & _).
  { eapply Hs'; [apply in_or_app; right; left; reflexivity|exact Im]. }
  { eapply Hs'; [exact Hin|exact Im']. }
  { exact Ra. }
  { exact Rb. }
  { split; [symmetry; exact B1|symmetry; exact B2]. }
  split; [exact Ho|]. split; [exact B1|]. split; [exact B2|]. split; [symmetry; exact Est|]. split; [exact Ec|].
  split; [exact Hb|]. rewrite (outs_all_spec _ _ _ _ _ Wf' Ec). tauto.
Qed.

Lemma genesis_of_export fuel s transfer cid outputs secret c : reachable H K s ->
  consign H K fuel s transfer cid outputs secret = Some (Base.Ok c) -> op_id H (c_genesis c) = cid.
Proof.
  intros Re E. pose proof (reachable_sound H HC K s Re) as Sd.
  destruct (consign_ok H K s cid outputs secret fuel transfer c Sd E) as (_ & _ & _ & _ & _ & _ & _ & _ & P9).
  exact (fi_genesis _ _ (go_filed _ _ (sd_stash _ _ Sd)) _ _ (df_genesis _ _ _ P9)).
Qed.

(** What a transition known to the sender, in a bundle of the consignment, is after resolving *)
Lemma resolved_transition st c c' w a b id t : resolve_secrets H st c = Base.Ok c' -> holds c w a b ->
  mget id (b_known b) = Some t ->
  exists wb t', In wb (c_bundles c') /\ wb_id wb = w /\ In t' (wb_known_transitions wb).
Proof.
  intros R Hh Et. destruct (resolve_holds_fwd _ _ _ _ _ _ _ R Hh) as (b' & Hh' & Al).
  assert (E : mget id (b_known b') <> None) by (apply (alike_known _ _ id Al); congruence).
  destruct (mget id (b_known b')) as [t'|] eqn:E'; [|congruence].
  apply holds_iff in Hh'. destruct Hh' as (wb & Hin & Ew & Hp). exists wb, t'. split; [exact Hin|]. split; [exact Ew|].
  unfold wb_known_transitions. apply in_flat_map. exists b'. split; [rewrite anchored_bundles_map; apply (in_map snd _ _ Hp)|].
  apply mget_In in E'. unfold mvals. apply in_map_iff. exists (id, t'). auto.
Qed.

Lemma resolved_genesis st c c' : resolve_secrets H st c = Base.Ok c' -> c_genesis c' = c_genesis c.
Proof. intros R. apply resolve_alike in R as [-> _]. reflexivity. Qed.

(** A payment to a seal which the receiver stored *)
Lemma received_secret fuel sA sB transfer cid outputs x c r sB' id bid t ty ta no st :
  reachable H K sA -> reachable H K sB ->
  seal_secret H (sk_stash sB) (h_seal H x) = Some x ->
  consign H K fuel sA transfer cid outputs (Some (h_seal H x)) = Some (Base.Ok c) ->
  accept_body H K c r sB = (sB', Base.Ok tt) ->
  known_in sA id bid t -> id <> cid ->
  In (ty, ta) (op_assigns t) -> nth_error (ta_list ta) no = Some (ConfidentialSeal (h_seal H x) st) ->
  let oo := {| oo_op := id; oo_ty := ty; oo_no := N.of_nat no |} in
  found sA cid outputs (Some (h_seal H x)) oo ->
  exists w out b mc,
    states (sk_index sA) (FWitness bid w) /\ live (sk_state sA) (Some w) /\
    r w <> None /\ mget w (ms_witnesses (sk_state sB')) = r w /\
    seal_output (Some w) x out /\ states (sk_index sB') (FOut cid out oo) /\
    oa_opout b = oo /\ oa_seal b = out /\ oa_state b = st /\ (s_txid x = None -> oa_witness b = Some w) /\
    contract_state (sk_state sB') cid = Base.Ok mc /\
    sstates (sk_state sB') (SFOut cid (ta_kind ta) b) /\ (In b (outs_all (ta_kind ta) mc) <-> live (sk_state sB') (oa_witness b)).
Proof.
  intros ReA ReB Sx E Ac Ki Ne Hta Hn oo Rq. pose proof (reachable_sound H HC K sA ReA) as SdA.
  destruct (consign_ok H K sA cid outputs _ fuel transfer c SdA E) as (_ & _ & P3 & _ & P5 & _).
  destruct (exported_ok H K sA HC fuel transfer cid outputs _ c SdA (reachable_fine H HC K sA ReA) E) as (Ok & Mt & Mo).
  assert (Hi : found_history sA cid outputs (Some (h_seal H x)) id) by (apply reached_start; [exists oo; auto|exact Ne]).
  destruct (P3 _ _ _ Hi Ki) as (w & a & b & Hh & An).
  assert (Et : mget bid (c_terminals c) = Some (h_seal H x)).
  { apply P5. split; [reflexivity|]. exists oo, t, ty, no. split; [exact Rq|]. split; [exact Ne|]. split; [exact Ki|].
    exists (ConfidentialSeal (h_seal H x) st). split; [exists ta; auto|reflexivity]. }
  destruct An as (Eb & Fw & Lw & _).
  assert (Ebid : bundle_id H b = bid) by (apply (fi_bundle _ _ (go_filed _ _ (sd_stash _ _ SdA)) _ _ Eb)).
  assert (Ekt : mget id (b_known b) = Some t).
  { destruct Ki as (_ & b' & Eb' & Et'). rewrite Eb in Eb'. apply Some_inj in Eb'. subst b'. exact Et'. }
  assert (Eid : op_id H t = id) by (exact (proj1 (go_bundle _ _ (sd_stash _ _ SdA) _ _ Eb) _ _ Ekt)).
  pose proof (accept_ok _ _ _ _ _ _ Ac) as (c' & R & E1 & E2 & _).
  rewrite <- Ebid in Et.
  destruct (resolved_bundle _ _ _ _ _ _ _ Mt Mo Sx R Hh Et) as (wb & Hw & Ew & Hp).
  assert (Ekt' : mget id (b_known (reveal_bundle H x b)) = Some (reveal_op H x t)).
  { cbn [b_known reveal_bundle]. rewrite mget_mmap, Ekt. reflexivity. }
  assert (Hb : In (reveal_bundle H x b) (anchored_bundles (wb_bundles wb))) by (rewrite anchored_bundles_map; apply (in_map snd _ _ Hp)).
  assert (Ht : In (reveal_op H x t) (wb_known_transitions wb)).
  { unfold wb_known_transitions. apply in_flat_map. exists (reveal_bundle H x b). split; [exact Hb|].
    apply mget_In in Ekt'. unfold mvals. apply in_map_iff. exists (id, reveal_op H x t). auto. }
  destruct (reveal_output x t ty ta no st Hta Hn) as (ta' & Hta' & Ek & Hn').
  destruct (accepted_state c' r sB (sk_state sB') wb (reveal_op H x t) ty ta' no x st ReB (resolve_ok _ _ _ _ r (Ok r) R) E1 Hw Ht Hta' Hn')
    as (Rw & Mw & out & ob & mc & So & O1 & O2 & O3 & O4 & Cs & O6 & O5).
  rewrite (resolved_genesis _ _ _ R), (genesis_of_export _ _ _ _ _ _ _ ReA E) in Cs, O6. rewrite Ek in O5, O6. rewrite Ew in *.
  assert (Er : op_id H (reveal_op H x t) = id) by (rewrite reveal_op_id; exact Eid).
  exists w, out, ob, mc. split; [exact Fw|]. split; [exact Lw|]. split; [exact Rw|]. split; [exact Mw|].
  split; [exact So|]. split; [|rewrite Er in O1; split; [exact O1|]; repeat (split; [assumption|]); assumption].
  pose proof (reachable_sound H HC K sB ReB) as SdB.
  destruct (adds_call H (IxConsignment c') _ _ _ E2 (sd_index _ _ SdB)) as (_ & _ & _ & Ca).
  apply (Ca tt eq_refl). right. left. right. right. right.
  exists wb, (reveal_bundle H x b). split; [exact Hw|]. split; [exact Hb|]. right. right.
  exists id, (reveal_op H x t). split; [apply mget_In; exact Ekt'|]. right.
  rewrite (resolved_genesis _ _ _ R), (genesis_of_export _ _ _ _ _ _ _ ReA E), Ew.
  exists ty, no, (Revealed x st). split; [exists ta'; auto|]. left. exists x, out. auto.
Qed.

(** ** What is revealed already *)

(** [b'] is [b], or [b] with a seal revealed. *)
Definition more_seals (b b' : Bundle) : Prop := b' = b \/ exists y, b' = reveal_bundle H y b.

Lemma resolved_pairs st c c' :
  msorted (c_terminals c) -> (forall wb, In wb (c_bundles c) -> methods_ok (wb_bundles wb)) ->
  resolve_secrets H st c = Base.Ok c' ->
  (forall w a b, holds c w a b -> exists b', holds c' w a b' /\ more_seals b b') /\
  (forall w a b', holds c' w a b' -> exists b, holds c w a b /\ more_seals b b').
Proof.
  intros Mt Mo R. destruct (reveal_terminal_seals_ok H _ c c' HC Mt Mo R) as [_ F].
  assert (Rv : forall t t', terminal_revealed H (fun secret => Base.Ok (seal_secret H st secret) : result StashError _) (c_terminals c) t t' ->
             more_seals t t').
  { intros t t' T. unfold terminal_revealed in T. destruct (mget _ _) as [sec|]; [|left; exact T].
    destruct (seal_secret H st sec) as [y|]; [right; exists y|left]; exact T. }
  assert (P : forall wb wb', witness_rel (terminal_revealed H (fun secret => Base.Ok (seal_secret H st secret) : result StashError _) (c_terminals c)) wb wb' ->
    wb_id wb' = wb_id wb /\ Forall2 (fun p q => fst p = fst q /\ more_seals (snd p) (snd q)) (anchored_iter (wb_bundles wb)) (anchored_iter (wb_bundles wb'))).
  { intros wb wb' [E1 E2]. split; [unfold wb_id; rewrite E1; reflexivity|].
    destruct (wb_bundles wb) as [t|o|t o], (wb_bundles wb') as [t'|o'|t' o']; try contradiction; cbn [anchored_rel] in E2;
      unfold client_rel in E2; cbn [anchored_iter di_iter di_single di_double di_first di_second app]; unfold cb_anchor.
    - destruct E2 as (A & B & C). constructor; [|constructor]. cbn [fst snd]. split; [cbn; unfold cb_anchor; rewrite A, B; reflexivity|apply Rv, C].
    - destruct E2 as (A & B & C). constructor; [|constructor]. cbn [fst snd]. split; [cbn; unfold cb_anchor; rewrite A, B; reflexivity|apply Rv, C].
    - destruct E2 as ((A & B & C) & (A' & B' & C')). constructor; [|constructor; [|constructor]]; cbn [fst snd].
      + split; [cbn; unfold cb_anchor; rewrite A, B; reflexivity|apply Rv, C].
      + split; [cbn; unfold cb_anchor; rewrite A', B'; reflexivity|apply Rv, C']. }
  split.
  - intros w a b Hh. apply holds_iff in Hh. destruct Hh as (wb & Hin & <- & Hp).
    destruct (Forall2_In_l _ _ _ _ F Hin) as (wb' & Hin' & Hr). apply P in Hr as [Ei Fp].
    destruct (Forall2_In_l _ _ _ _ Fp Hp) as ([a' b'] & Hp' & E1 & Ms). cbn [fst snd] in *. subst a'.
    exists b'. split; [|exact Ms]. apply holds_iff. exists wb'. auto.
  - intros w a b' Hh. apply holds_iff in Hh. destruct Hh as (wb' & Hin' & <- & Hp').
    destruct (Forall2_In_r _ _ _ _ F Hin') as (wb & Hin & Hr). apply P in Hr as [Ei Fp].
    destruct (Forall2_In_r _ _ _ _ Fp Hp') as ([a' b] & Hp & E1 & Ms). cbn [fst snd] in *. subst a'.
    exists b. split; [|exact Ms]. apply holds_iff. exists wb. auto.
Qed.

(** [t'] is [t], or [t] with a seal revealed. *)
Definition more_op (t t' : Operation) : Prop := t' = t \/ exists y, t' = reveal_op H y t.

Lemma more_known b b' id : more_seals b b' ->
  (forall t, mget id (b_known b) = Some t -> exists t', mget id (b_known b') = Some t' /\ more_op t t') /\
  (forall t', mget id (b_known b') = Some t' -> exists t, mget id (b_known b) = Some t /\ more_op t t').
Proof.
  intros [->|(y & ->)].
  - split; intros t E; exists t; (split; [exact E|left; reflexivity]).
  - cbn [b_known reveal_bundle]. rewrite mget_mmap. split.
    + intros t E. rewrite E. exists (reveal_op H y t). split; [reflexivity|right; eauto].
    + intros t' E. destruct (mget id (b_known b)) as [t|]; [|discriminate]. apply Some_inj in E. exists t. split; [reflexivity|right; eauto].
Qed.

Lemma more_id t t' : more_op t t' -> op_id H t' = op_id H t.
Proof. intros [->|(y & ->)]; [reflexivity|apply reveal_op_id]. Qed.

Lemma more_revealed t t' ty ta no x st : more_op t t' -> In (ty, ta) (op_assigns t) ->
  nth_error (ta_list ta) no = Some (Revealed x st) ->
  exists ta', In (ty, ta') (op_assigns t') /\ ta_kind ta' = ta_kind ta /\ nth_error (ta_list ta') no = Some (Revealed x st).
Proof.
  intros [->|(y & ->)] Hta Hn; [eauto|]. exists (reveal_typed H y ta). split; [|split; [reflexivity|]].
  - cbn [op_assigns reveal_op set_assigns]. unfold mmap. apply in_map_iff. exists (ty, ta). auto.
  - cbn [ta_list reveal_typed]. rewrite nth_error_map, Hn. reflexivity.
Qed.

Lemma transition_of c w a b id t : holds c w a b -> mget id (b_known b) = Some t ->
  exists wb, In wb (c_bundles c) /\ wb_id wb = w /\ In b (anchored_bundles (wb_bundles wb)) /\ In t (wb_known_transitions wb).
Proof.
  intros Hh E. apply holds_iff in Hh. destruct Hh as (wb & Hin & Ew & Hp). exists wb. split; [exact Hin|]. split; [exact Ew|].
  assert (Hb : In b (anchored_bundles (wb_bundles wb))) by (rewrite anchored_bundles_map; apply (in_map snd _ _ Hp)).
  split; [exact Hb|]. unfold wb_known_transitions. apply in_flat_map. exists b. split; [exact Hb|].
  apply mget_In in E. unfold mvals. apply in_map_iff. exists (id, t). auto.
Qed.

(** What the history reveals to the sender, the receiver finds. *)
Lemma received_revealed fuel sA sB transfer cid outputs secret c r sB' id bid t ty ta no x st :
  reachable H K sA -> reachable H K sB ->
  consign H K fuel sA transfer cid outputs secret = Some (Base.Ok c) ->
  accept_body H K c r sB = (sB', Base.Ok tt) ->
  found_history sA cid outputs secret id -> known_in sA id bid t ->
  In (ty, ta) (op_assigns t) -> nth_error (ta_list ta) no = Some (Revealed x st) ->
  let oo := {| oo_op := id; oo_ty := ty; oo_no := N.of_nat no |} in
  exists w out b mc,
    states (sk_index sA) (FWitness bid w) /\ live (sk_state sA) (Some w) /\
    r w <> None /\ mget w (ms_witnesses (sk_state sB')) = r w /\
    seal_output (Some w) x out /\ states (sk_index sB') (FOut cid out oo) /\
    oa_opout b = oo /\ oa_seal b = out /\ oa_state b = st /\ (s_txid x = None -> oa_witness b = Some w) /\
    contract_state (sk_state sB') cid = Base.Ok mc /\
    sstates (sk_state sB') (SFOut cid (ta_kind ta) b) /\ (In b (outs_all (ta_kind ta) mc) <-> live (sk_state sB') (oa_witness b)).
Proof.
  intros ReA ReB E Ac Hi Ki Hta Hn oo. pose proof (reachable_sound H HC K sA ReA) as SdA.
  destruct (consign_ok H K sA cid outputs _ fuel transfer c SdA E) as (_ & _ & P3 & _).
  destruct (exported_ok H K sA HC fuel transfer cid outputs _ c SdA (reachable_fine H HC K sA ReA) E) as (Ok & Mt & Mo).
  destruct (P3 _ _ _ Hi Ki) as (w & a & b & Hh & (Eb & Fw & Lw & _)).
  assert (Ekt : mget id (b_known b) = Some t).
  { destruct Ki as (_ & b' & Eb' & Et'). rewrite Eb in Eb'. apply Some_inj in Eb'. subst b'. exact Et'. }
  assert (Eid : op_id H t = id) by (exact (proj1 (go_bundle _ _ (sd_stash _ _ SdA) _ _ Eb) _ _ Ekt)).
  pose proof (accept_ok _ _ _ _ _ _ Ac) as (c' & R & E1 & E2 & _).
  destruct (proj1 (resolved_pairs _ _ _ Mt Mo R) _ _ _ Hh) as (b' & Hh' & Ms).
  destruct (proj1 (more_known b b' id Ms) _ Ekt) as (t' & Ekt' & Mt').
  destruct (transition_of _ _ _ _ _ _ Hh' Ekt') as (wb & Hw & Ew & Hb & Ht).
  destruct (more_revealed _ _ _ _ _ _ _ Mt' Hta Hn) as (ta' & Hta' & Ek & Hn').
  destruct (accepted_state c' r sB (sk_state sB') wb t' ty ta' no x st ReB (resolve_ok _ _ _ _ r (Ok r) R) E1 Hw Ht Hta' Hn')
    as (Rw & Mw & out & ob & mc & So & O1 & O2 & O3 & O4 & Cs & O6 & O5).
  rewrite (resolved_genesis _ _ _ R), (genesis_of_export _ _ _ _ _ _ _ ReA E) in Cs, O6. rewrite Ek in O5, O6. rewrite Ew in *.
  assert (Er : op_id H t' = id) by (rewrite (more_id _ _ Mt'); exact Eid).
  exists w, out, ob, mc. split; [exact Fw|]. split; [exact Lw|]. split; [exact Rw|]. split; [exact Mw|].
  split; [exact So|]. split; [|rewrite Er in O1; split; [exact O1|]; repeat (split; [assumption|]); assumption].
  pose proof (reachable_sound H HC K sB ReB) as SdB.
  destruct (adds_call H (IxConsignment c') _ _ _ E2 (sd_index _ _ SdB)) as (_ & _ & _ & Ca).
  apply (Ca tt eq_refl). right. left. right. right. right.
  exists wb, b'. split; [exact Hw|]. split; [exact Hb|]. right. right.
  exists id, t'. split; [apply mget_In; exact Ekt'|]. right.
  rewrite (resolved_genesis _ _ _ R), (genesis_of_export _ _ _ _ _ _ _ ReA E), Ew.
  exists ty, no, (Revealed x st). split; [exists ta'; auto|]. left. exists x, out. auto.
Qed.

(** What the genesis reveals, the receiver finds. *)
Lemma received_genesis fuel sA sB transfer cid outputs secret c r sB' g ty ta no x st :
  reachable H K sA -> reachable H K sB ->
  consign H K fuel sA transfer cid outputs secret = Some (Base.Ok c) ->
  accept_body H K c r sB = (sB', Base.Ok tt) ->
  mget cid (st_geneses (sk_stash sA)) = Some g ->
  In (ty, ta) (op_assigns g) -> nth_error (ta_list ta) no = Some (Revealed x st) ->
  let oo := {| oo_op := cid; oo_ty := ty; oo_no := N.of_nat no |} in
  exists out b mc, seal_output None x out /\ states (sk_index sB') (FOut cid out oo) /\
    oa_opout b = oo /\ oa_seal b = out /\ oa_state b = st /\
    contract_state (sk_state sB') cid = Base.Ok mc /\
    sstates (sk_state sB') (SFOut cid (ta_kind ta) b) /\ (In b (outs_all (ta_kind ta) mc) <-> live (sk_state sB') (oa_witness b)).
Proof.
  intros ReA ReB E Ac Hg Hta Hn oo. pose proof (reachable_sound H HC K sA ReA) as SdA.
  destruct (consign_ok H K sA cid outputs secret fuel transfer c SdA E) as (_ & _ & _ & _ & _ & _ & _ & _ & P9).
  pose proof (df_genesis _ _ _ P9) as Eg. rewrite Hg in Eg. apply Some_inj in Eg. subst g.
  destruct (exported_ok H K sA HC fuel transfer cid outputs _ c SdA (reachable_fine H HC K sA ReA) E) as (Ok & Mt & Mo).
  pose proof (accept_ok _ _ _ _ _ _ Ac) as (c' & R & E1 & E2 & _).
  rewrite <- (resolved_genesis _ _ _ R) in Hta.
  destruct (accepted_genesis c' r sB (sk_state sB') ty ta no x st ReB (resolve_ok _ _ _ _ r (Ok r) R) E1 Hta Hn)
    as (out & b & mc & So & O1 & O2 & O3 & O4 & O5 & O6).
  assert (Ei : op_id H (c_genesis c') = cid) by (rewrite (resolved_genesis _ _ _ R); exact (genesis_of_export _ _ _ _ _ _ _ ReA E)).
  rewrite Ei in *. exists out, b, mc. split; [exact So|]. split; [|auto 10].
  pose proof (reachable_sound H HC K sB ReB) as SdB.
  destruct (adds_call H (IxConsignment c') _ _ _ E2 (sd_index _ _ SdB)) as (_ & _ & _ & Ca).
  apply (Ca tt eq_refl). right. left. right. left. rewrite Ei.
  exists ty, no, (Revealed x st). split; [exists ta; auto|]. left. exists x, out. auto.
Qed.

(** What the receiver finds after acceptance and did not have before comes from the
    genesis or a transition which the sender knows, in a bundle with a witness of the
    sender. *)
Lemma received_only fuel sA sB transfer cid outputs secret c r sB' k b :
  reachable H K sA -> reachable H K sB ->
  consign H K fuel sA transfer cid outputs secret = Some (Base.Ok c) ->
  fst (accept_body H K c r sB) = sB' ->
  sstates (sk_state sB') (SFOut cid k b) -> ~ sstates (sk_state sB) (SFOut cid k b) ->
  (exists g, mget cid (st_geneses (sk_stash sA)) = Some g /\ reveals H g OWGenesis k b) \/
  exists bid bd t t' w, mget bid (st_bundles (sk_stash sA)) = Some bd /\ In t (mvals (b_known bd)) /\
    states (sk_index sA) (FWitness bid w) /\ live (sk_state sA) (Some w) /\
    more_op t t' /\ reveals H t' (OWTransition w (op_ty t')) k b.
Proof.
  intros ReA ReB E Ac Hs Hns. pose proof (reachable_sound H HC K sA ReA) as SdA.
  destruct (consign_ok H K sA cid outputs _ fuel transfer c SdA E) as (_ & P2 & _ & _ & _ & _ & Pe & _ & P9).
  destruct (exported_ok H K sA HC fuel transfer cid outputs _ c SdA (reachable_fine H HC K sA ReA) E) as (Ok & Mt & Mo).
  rewrite accept_split in Ac. destruct (resolve_secrets H (sk_stash sB) c) as [c'|e|] eqn:R.
  2,3: cbn [fst] in Ac; subst sB'; contradiction.
  assert (Es : sk_state sB' = fst (state_call H (StConsignment c' r) (sk_state sB))).
  { destruct (state_call H (StConsignment c' r) (sk_state sB)) as [st [[]|e|]]; cbn [fst] in *; try (subst sB'; reflexivity).
    destruct (index_call H (IxConsignment c') (sk_index sB)) as [ix [[]|e|]]; cbn [fst] in *; try (subst sB'; reflexivity).
    destruct (consume_consignment H K c' (sk_stash sB)) as [sh res]; cbn [fst] in Ac; subst sB'; reflexivity. }
  assert (Wf : swf (sk_state sB)).
  { destruct ReB as (l & Hl & EB). destruct (after_state l sB EB Hl) as (ls & -> & _). apply safter_wf. }
  destruct (scall_adds H (StConsignment c' r) _ Wf) as (_ & S & _). rewrite Es in Hs. destruct (S _ Hs) as [Hx|Hx]; [contradiction|].
  destruct Hx as (ow & o & (Ec & Im) & Rv). rewrite (resolved_genesis _ _ _ R) in Im.
  pose proof (resolve_alike _ _ _ _ R) as [Eset _].
  destruct Im as [(-> & ->)|[(wb & Hw & Ho & ->)|(w & Ho & _)]].
  - left. exists (c_genesis c). split; [apply P9|exact Rv].
  - right. unfold wb_known_transitions in Ho. apply in_flat_map in Ho as (b' & Hb' & Ho).
    rewrite anchored_bundles_map in Hb'. apply in_map_iff in Hb' as ([a b''] & Eb'' & Hp). cbn [snd] in Eb''. subst b''.
    assert (Hh' : holds c' (wb_id wb) a b') by (apply holds_iff; exists wb; auto).
    destruct (proj2 (resolved_pairs _ _ _ Mt Mo R) _ _ _ Hh') as (bd & Hh & Ms).
    destruct (P2 _ _ _ Hh) as (id & bid & t0 & _ & _ & (Eb & Fw & Lw & _)).
    assert (Hm : exists t, In t (mvals (b_known bd)) /\ more_op t o).
    { destruct Ms as [->|(y & ->)]; [exists o; split; [exact Ho|left; reflexivity]|].
      cbn [b_known reveal_bundle] in Ho. unfold mvals, mmap in Ho. rewrite map_map in Ho.
      apply in_map_iff in Ho as ([i t] & <- & Hin). cbn [snd]. exists t. split; [|right; eauto].
      unfold mvals. apply in_map_iff. exists (i, t). auto. }
    destruct Hm as (t & Hin & Mop). exists bid, bd, t, o, (wb_id wb). auto 10.
  - exfalso. rewrite Eset in Ho. cbn [c_extensions set_bundles] in Ho. rewrite Pe in Ho. destruct Ho.
Qed.
End Received.
