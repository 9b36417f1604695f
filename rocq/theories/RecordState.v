(** Proofs for C88: the state *)
From Verif Require Import Base StM Core MergeSpec ContainerModel ContainerSpec PIndexModel PIndexProofs.
From Verif Require Import StateModel StashModel StashSpec StockModel FasciaProps AcceptSpec PIndexSpec AcceptProofs AcceptState RecordSpec.
Local Open Scope N_scope.

Lemma moves_of_app cid a b : moves_of cid (a ++ b) = moves_of cid a ++ moves_of cid b.
Proof. apply filter_app. Qed.
Lemma moves_of_within cid x t : within x t -> within (moves_of cid x) (moves_of cid t).
Proof. intros (y & ->). exists (moves_of cid y). apply moves_of_app. Qed.

Lemma minsert_again {K V} `{OrdKey K} (k : K) (a b : V) m : minsert k b (minsert k a m) = minsert k b m.
Proof.
  induction m as [|[k' v] m IH]; cbn [minsert]; [rewrite cmp_refl; reflexivity|].
  destruct (cmp k k') eqn:E; cbn [minsert]; rewrite ?cmp_refl, ?E; [reflexivity|reflexivity|]. f_equal. exact IH.
Qed.

Section State.
Context {OG : OrdKey GlobalOut}.
Context (H : Hashes) (r : Resolver) (f : Fascia) (s0 : MemState).
Let w := fascia_witness_id f.
Let T := moves f.

Record sinv (x : list (N * Operation)) (s : MemState) : Prop := {
  si_wit : ms_witnesses s = ms_witnesses s0 \/ exists ord, ms_witnesses s = minsert w ord (ms_witnesses s0);
  si_none : forall cid, mget cid (ms_contracts s) = None <-> mget cid (ms_contracts s0) = None;
  si_state : forall cid cs, mget cid (ms_contracts s) = Some cs ->
    (forall ty, mget ty (cs_global cs) = None -> exists cs0, mget cid (ms_contracts s0) = Some cs0 /\ mget ty (cs_global cs0) = None) /\
    (forall ty, len (known_of cs ty) <= len (globals_known s0 cid ty) + total (fun p => globals_in (snd p)) (moves_of cid x)) /\
    (forall k, len (cs_outs k cs) <= len (outputs_known s0 cid k) + total (fun p => outputs_in (snd p)) (moves_of cid x))
}.

Definition sbad (e : StateError) : Prop :=
  match e with
  | UnknownContract cid => mget cid (ms_contracts s0) = None /\ exists b, In (cid, b) (fascia_bundles f)
  | ResolverFailed w' => w' = w /\ r w = None /\ T <> []
  | StateFull => ~ witness_space s0
  | _ => False
  end.
Definition sboom : Prop := fascia_seal_lost f \/ fascia_undeclared s0 f \/ ~ moves_room s0 T.

Lemma transition_runs x cid t : In cid (map fst (fascia_bundles f)) -> within (x ++ [(cid, t)]) T ->
  runs (sinv x) (sinv (x ++ [(cid, t)])) sbad sboom (do! ord <- resolve r w ;; add_transition H cid t w ord).
Proof.
  intros Hc Hw s I. assert (Hin : In (cid, t) T) by (eapply within_In; [exact Hw|]; apply in_app_iff; right; left; reflexivity).
  unfold bind at 1, resolve, lift. destruct (r w) as [ord|] eqn:Er; cbn [ok_or].
  2:{ cbn. split; [reflexivity|]. split; [exact Er|]. intros E. rewrite E in Hin. destruct Hin. }
  unfold add_transition, bind, set_witness, cinsert. destruct I as [Iw In_ Is].
  destruct (_ <? U32MAX) eqn:El.
  2:{ apply N.ltb_ge in El. cbn. unfold witness_space. intros R. destruct Iw as [E|(o & E)]; rewrite E in El; [lia|].
      pose proof (len_insert_le w o (ms_witnesses s0)). lia. }
  unfold on_contract. cbn [ms_contracts set_witnesses].
  destruct (mget cid (ms_contracts s)) as [cs|] eqn:Ec.
  2:{ cbn. split; [apply In_, Ec|]. apply in_map_iff in Hc as ([c' b] & E & Hb). cbn in E. subst c'. eauto. }
  destruct (Is cid cs Ec) as (D & G & O).
  pose proof (total_within (fun p => globals_in (snd p)) _ _ (moves_of_within cid _ _ Hw)) as Tg.
  pose proof (total_within (fun p => outputs_in (snd p)) _ _ (moves_of_within cid _ _ Hw)) as To.
  assert (Em : forall c, moves_of c (x ++ [(cid, t)]) = moves_of c x ++ if cid =? c then [(cid, t)] else []).
  { intros c. rewrite moves_of_app. reflexivity. }
  assert (Tt : forall g : N * Operation -> N, total g [(cid, t)] = g (cid, t)) by (intros g; unfold total; cbn; lia).
  rewrite Em, N.eqb_refl, total_app, Tt in Tg, To. cbn [snd] in Tg, To.
  pose proof (add_operation_runs H cs (OWTransition w (op_ty t)) t) as A.
  destruct (add_operation H cs (OWTransition w (op_ty t)) t) as [cs'|e|]; [|contradiction|].
  - destruct A as (A1 & A2 & A3). constructor; cbn [ms_contracts ms_witnesses set_states set_witnesses].
    + right. exists ord. destruct Iw as [->|(o & ->)]; [reflexivity|apply minsert_again].
    + intros c. rewrite mget_insert. destruct (keqb c cid) eqn:Ek; [|apply In_]. apply keqb_true in Ek as ->.
      rewrite <- In_, Ec. split; discriminate.
    + intros c cs1. rewrite mget_insert, Em. destruct (keqb c cid) eqn:Ek.
      * apply keqb_true in Ek as ->. intros E. apply Some_inj in E as <-. rewrite N.eqb_refl. split; [|split].
        -- intros ty E. apply D, A1, E.
        -- intros ty. rewrite total_app, Tt. specialize (A2 ty). specialize (G ty). cbn [snd]. lia.
        -- intros k. rewrite total_app, Tt. specialize (A3 k). specialize (O k). cbn [snd]. lia.
      * apply keqb_neq in Ek. intros E. destruct (N.eqb_spec cid c) as [->|_]; [destruct Ek; reflexivity|]. rewrite app_nil_r. apply Is, E.
  - assert (Rm : forall (P : Prop), (moves_room s0 T -> ~ P) -> P -> sboom) by (intros P Hp p; right; right; intros R; exact (Hp R p)).
    destruct A as [(ty & vals & Ht & E)|[(ty & E)|[(k & E)|(ty & no & a & seal & Ha & Es & Eo)]]].
    + right. left. destruct (D ty E) as (cs0 & E0 & E1). exists (cid, t), ty, vals, cs0. auto.
    + revert E. apply Rm. intros R. pose proof (mr_global _ _ R cid ty) as R'. specialize (G ty). fold T in R'. lia.
    + revert E. apply Rm. intros R. pose proof (mr_out _ _ R cid k) as R'. specialize (O k). fold T in R'. lia.
    + left. exists (cid, t), ty, no, a, seal. split; [exact Hin|]. split; [exact Ha|]. split; [exact Es|].
      intros out Ho. apply assign_output_spec in Ho. change (op_witness (OWTransition w (op_ty t))) with (Some w) in Eo. fold w in Ho. congruence.
Qed.

Lemma state_bundle_runs x cid b : In (cid, b) (fascia_bundles f) ->
  within (x ++ map (fun q : N * Operation => (cid, snd q)) (b_known b)) T ->
  runs (sinv x) (sinv (x ++ map (fun q : N * Operation => (cid, snd q)) (b_known b))) sbad sboom (update_from_bundle H cid b w r).
Proof.
  intros Hb Hw. unfold update_from_bundle. apply runs_get. intros s I.
  destruct (mhas cid (ms_contracts s)) eqn:Eh.
  2:{ apply mhas_false in Eh. unfold bind at 1. cbn. split; [apply (si_none _ _ I), Eh|]. eauto. }
  unfold bind at 1. cbn [ret].
  assert (E : map (fun q : N * Operation => (cid, snd q)) (b_known b) = flat_map (fun t => [(cid, t)]) (mvals (b_known b))).
  { clear. unfold mvals. induction (b_known b) as [|q l IH]; [reflexivity|]. cbn. f_equal. exact IH. }
  rewrite E in *. revert s I Eh. intros s I _.
  refine (runs_mfor sbad sboom T sinv _ _ _ x _ Hw s I).
  intros t y Ht Hy. apply transition_runs; [|exact Hy]. apply (in_map fst) in Hb. exact Hb.
Qed.

Lemma sinv_start : sinv [] s0.
Proof.
  constructor; [left; reflexivity|reflexivity|]. intros cid cs E. split; [intros ty E'; eauto|]. split.
  - intros ty. unfold known_of, globals_known. rewrite E. lia.
  - intros k. unfold outputs_known. rewrite E. lia.
Qed.
End State.
