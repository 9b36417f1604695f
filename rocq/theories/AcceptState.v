(** Proofs for C86: the state *)
From Verif Require Import Base StM Core MergeSpec ContainerModel ContainerSpec PIndexModel PIndexProofs.
From Verif Require Import StateModel StashModel StashSpec StockModel AcceptSpec PIndexSpec AcceptProofs.
Local Open Scope N_scope.

Lemma total_app {A} (f : A -> N) a b : total f (a ++ b) = total f a + total f b.
Proof. unfold total. rewrite map_app. apply list_sum_app. Qed.
Lemma total_cons {A} (f : A -> N) x l : total f (x :: l) = f x + total f l.
Proof. reflexivity. Qed.
Lemma total_within {A} (f : A -> N) x t : within x t -> total f x <= total f t.
Proof. intros (y & ->). rewrite total_app. lia. Qed.
Lemma total_one {A} (l : list A) : total (fun _ => 1) l = len l.
Proof. induction l as [|a l IH]; [reflexivity|]. rewrite total_cons, IH. unfold len. cbn [length]. lia. Qed.
Lemma len_enum {A} (l : list A) : len (enumerate l) = len l.
Proof.
  unfold enumerate, len. f_equal. generalize 0%nat. induction l as [|a l IH]; intros n; [reflexivity|]. cbn. f_equal. apply IH.
Qed.

(** A fold, where costs are counted *)
Lemma rfold_runs {E S A} (t : N) (inv : N -> S -> Prop) (cost : A -> N) (bad : E -> Prop) (boom : Prop) (f : S -> A -> result E S) l :
  forall n s,
  (forall a n s, In a l -> n + cost a <= t -> inv n s ->
     match f s a with Ok s' => inv (n + cost a) s' | Err e => bad e | Panic => boom end) ->
  n + total cost l <= t -> inv n s ->
  match rfold f s l with Ok s' => inv (n + total cost l) s' | Err e => bad e | Panic => boom end.
Proof.
  induction l as [|a l IH]; intros n s Hf Ht I; cbn [rfold].
  - unfold total. cbn. rewrite N.add_0_r. exact I.
  - rewrite total_cons in Ht |- *. pose proof (Hf a n s (or_introl eq_refl)) as Ha.
    assert (La : n + cost a <= t) by lia. specialize (Ha La I).
    destruct (f s a) as [s'|e|]; cbn [rbind]; [|exact Ha|exact Ha].
    rewrite N.add_assoc. apply IH; [|lia|exact Ha]. intros b m s2 Hb. apply Hf. right. exact Hb.
Qed.

Section State.
Context {OG : OrdKey GlobalOut}.

Lemma process_runs outs l opid ty w :
  match process outs l opid ty w with
  | Ok outs' => len outs' <= len outs + len l
  | Err _ => False
  | Panic => U32MAX < len outs + len l \/
      exists no a s, nth_error l no = Some a /\ revealed_seal a = Some s /\ assign_output w s = None
  end.
Proof.
  unfold process.
  pose proof (rfold_runs (E := StateError) (len l) (fun n (o : Outputs) => len o <= len outs + n) (fun _ => 1) (fun _ => False)
    (U32MAX < len outs + len l \/ exists no a s, nth_error l no = Some a /\ revealed_seal a = Some s /\ assign_output w s = None)
    (fun outs (p : nat * Assign) =>
           match to_revealed (snd p) with
           | None => Ok outs
           | Some (seal, st) =>
               let! out := expect (assign_output w seal) in
               expect (push_out (opout opid ty (fst p), out) st w outs)
           end) (enumerate l) 0 outs) as R.
  rewrite total_one, len_enum, N.add_0_l in R. apply R; [|lia|lia]. clear R.
  intros [no a] n s Hin Hn I. apply enumerate_In in Hin. cbn [fst snd].
  destruct (to_revealed a) as [[seal st]|] eqn:Ea; [|lia].
  assert (Es : revealed_seal a = Some seal) by (destruct a; cbn in *; congruence).
  destruct (assign_output w seal) as [out|] eqn:Eo; cbn [expect rbind]; [|right; exists no, a, seal; auto].
  unfold push_out. destruct (len s <? U32MAX) eqn:El; cbn [expect].
  - destruct (mhas _ s); [lia|]. match goal with |- (len (@minsert ?K ?V ?O ?k ?v ?m) <= _)%N => pose proof (@len_insert_le K V O k v m) end. lia.
  - apply N.ltb_ge in El. left. lia.
Qed.

Lemma cs_outs_set k k' cs o : cs_outs k' (cs_set_outs k cs o) = o /\ k = k' \/ cs_outs k' (cs_set_outs k cs o) = cs_outs k' cs.
Proof. destruct k, k'; cbn; auto. Qed.

Definition seal_lost (w : option WitnessId) (o : Operation) : Prop :=
  exists ty no a s, assigned o ty no a /\ revealed_seal a = Some s /\ assign_output w s = None.

Lemma add_assignments_runs cs w opid o :
  match add_assignments cs w opid (op_assigns o) with
  | Ok cs' => cs_global cs' = cs_global cs /\ forall k, len (cs_outs k cs') <= len (cs_outs k cs) + outputs_in o
  | Err _ => False
  | Panic => (exists k, U32MAX < len (cs_outs k cs) + outputs_in o) \/ seal_lost w o
  end.
Proof.
  unfold add_assignments.
  apply (rfold_runs (outputs_in o) (fun n cs' => cs_global cs' = cs_global cs /\ forall k, len (cs_outs k cs') <= len (cs_outs k cs) + n)
    (fun p : N * TypedAssigns => len (ta_list (snd p))) (fun _ => False)
    ((exists k, U32MAX < len (cs_outs k cs) + outputs_in o) \/ seal_lost w o) _ (op_assigns o) 0 cs).
  - intros [ty ta] n s Hin Hn [Ig Io]. cbn [fst snd] in *.
    pose proof (process_runs (cs_outs (ta_kind ta) s) (ta_list ta) opid ty w) as P.
    destruct (process _ _ _ _ _) as [outs|e|]; cbn [rbind]; [|exact P|].
    + split; [destruct (ta_kind ta); exact Ig|]. intros k. destruct (cs_outs_set (ta_kind ta) k s outs) as [[-> <-]| ->].
      * specialize (Io (ta_kind ta)). lia.
      * specialize (Io k). lia.
    + destruct P as [P|(no & a & seal & Hn' & Er & Ea)].
      * left. exists (ta_kind ta). specialize (Io (ta_kind ta)). lia.
      * right. exists ty, no, a, seal. split; [exists ta; auto|]. auto.
  - unfold outputs_in, total. lia.
  - split; [reflexivity|]. intros k. lia.
Qed.

Definition known_of (cs : ContractState) (ty : N) : omap GlobalOut N :=
  match mget ty (cs_global cs) with Some g => mg_known g | None => [] end.

Lemma values_runs opid nonce ow (vals : list N) (known : omap GlobalOut N) :
  match rfold (E := StateError) (fun known (q : nat * N) =>
                            expect (cinsert U32MAX
                              {| go_op := opid; go_nonce := nonce;
                                 go_index := N.of_nat (fst q); go_witness := ow |} (snd q) known))
                          known (enumerate vals) with
  | Ok known' => len known' <= len known + len vals
  | Err _ => False
  | Panic => U32MAX < len known + len vals
  end.
Proof.
  pose proof (rfold_runs (E := StateError) (len vals) (fun n (o : omap GlobalOut N) => len o <= len known + n) (fun _ => 1) (fun _ => False)
    (U32MAX < len known + len vals) (fun known (q : nat * N) =>
                            expect (cinsert U32MAX
                              {| go_op := opid; go_nonce := nonce;
                                 go_index := N.of_nat (fst q); go_witness := ow |} (snd q) known)) (enumerate vals) 0 known) as R.
  rewrite total_one, len_enum, N.add_0_l in R. apply R; [|lia|lia]. clear R.
  intros [no v] n s _ Hn I. cbn [fst snd]. unfold cinsert. destruct (_ <? _) eqn:El; cbn [expect].
  - match goal with |- (len (@minsert ?K ?V ?O ?k ?v ?m) <= _)%N => pose proof (@len_insert_le K V O k v m) end. lia.
  - apply N.ltb_ge in El. lia.
Qed.

Lemma add_globals_runs cs opid ow o :
  match add_globals cs opid ow o with
  | Ok cs' => (forall k, cs_outs k cs' = cs_outs k cs) /\
      (forall ty, mget ty (cs_global cs') = None <-> mget ty (cs_global cs) = None) /\
      forall ty, len (known_of cs' ty) <= len (known_of cs ty) + globals_in o
  | Err _ => False
  | Panic => (exists ty vals, In (ty, vals) (op_globals o) /\ mget ty (cs_global cs) = None) \/
      exists ty, U32MAX < len (known_of cs ty) + globals_in o
  end.
Proof.
  unfold add_globals.
  apply (rfold_runs (globals_in o) (fun n cs' => (forall k, cs_outs k cs' = cs_outs k cs) /\
      (forall ty, mget ty (cs_global cs') = None <-> mget ty (cs_global cs) = None) /\
      forall ty, len (known_of cs' ty) <= len (known_of cs ty) + n)
    (fun p : N * list N => len (snd p)) (fun _ => False)
    ((exists ty vals, In (ty, vals) (op_globals o) /\ mget ty (cs_global cs) = None) \/
      exists ty, U32MAX < len (known_of cs ty) + globals_in o) _ (op_globals o) 0 cs).
  - intros [ty vals] n s Hin Hn (Io & Ik & Il). cbn [fst snd] in *.
    destruct (mget ty (cs_global s)) as [g|] eqn:Eg; cbn [expect rbind].
    2:{ left. exists ty, vals. split; [exact Hin|]. apply Ik, Eg. }
    pose proof (values_runs opid (op_nonce o) ow vals (mg_known g)) as V.
    assert (Eq : known_of s ty = mg_known g) by (unfold known_of; rewrite Eg; reflexivity).
    destruct (rfold _ _ _) as [known|e|]; cbn [rbind]; [|exact V|].
    + split; [intros k; rewrite <- (Io k); destruct k; reflexivity|]. split.
      * intros ty'. cbn [cs_global cs_set_global]. rewrite mget_insert. destruct (keqb ty' ty) eqn:Ek; [|apply Ik].
        apply keqb_true in Ek as ->. split; [discriminate|]. intros E. apply Ik in E. congruence.
      * intros ty'. unfold known_of at 1. cbn [cs_global cs_set_global]. rewrite mget_insert. destruct (keqb ty' ty) eqn:Ek.
        -- apply keqb_true in Ek as ->. cbn [mg_known]. specialize (Il ty). rewrite Eq in Il. lia.
        -- specialize (Il ty'). unfold known_of at 1 in Il. lia.
    + right. exists ty. specialize (Il ty). rewrite Eq in Il. lia.
  - unfold globals_in, total. lia.
  - split; [reflexivity|]. split; [reflexivity|]. intros ty. lia.
Qed.

Lemma add_operation_runs H cs ow o :
  match add_operation H cs ow o with
  | Ok cs' => (forall ty, mget ty (cs_global cs') = None <-> mget ty (cs_global cs) = None) /\
      (forall ty, len (known_of cs' ty) <= len (known_of cs ty) + globals_in o) /\
      forall k, len (cs_outs k cs') <= len (cs_outs k cs) + outputs_in o
  | Err _ => False
  | Panic => (exists ty vals, In (ty, vals) (op_globals o) /\ mget ty (cs_global cs) = None) \/
      (exists ty, U32MAX < len (known_of cs ty) + globals_in o) \/
      (exists k, U32MAX < len (cs_outs k cs) + outputs_in o) \/ seal_lost (op_witness ow) o
  end.
Proof.
  unfold add_operation. pose proof (add_globals_runs cs (op_id H o) ow o) as G.
  destruct (add_globals cs (op_id H o) ow o) as [cs1|e|]; cbn [rbind]; [|exact G|tauto].
  destruct G as (G1 & G2 & G3). pose proof (add_assignments_runs cs1 (op_witness ow) (op_id H o) o) as A.
  destruct (add_assignments cs1 _ _ _) as [cs2|e|]; [|exact A|].
  - destruct A as (A1 & A2). rewrite A1. split; [exact G2|]. split.
    + intros ty. unfold known_of at 1. rewrite A1. apply G3.
    + intros k. specialize (A2 k). rewrite (G1 k) in A2. exact A2.
  - right. right. destruct A as [(k & A)|A]; [left; exists k; rewrite (G1 k) in A; exact A|right; exact A].
Qed.

Context (H : Hashes) (c : Consignment) (r : Resolver) (s0 : MemState).
Let cid := contract_of H c.
Let T := published H c.

Record sinv (x : list (OpWitness * Operation)) (s : MemState) : Prop := {
  si_wit : len (ms_witnesses s) <= len (ms_witnesses s0) + len x;
  si_state : exists cs, mget cid (ms_contracts s) = Some cs /\
    (forall ty, mget ty (cs_global cs) = None -> ~ declared H s0 c ty) /\
    (forall ty, len (known_of cs ty) <= len (globals_known s0 cid ty) + total (fun p => globals_in (snd p)) x) /\
    (forall k, len (cs_outs k cs) <= len (outputs_known s0 cid k) + total (fun p => outputs_in (snd p)) x)
}.

Definition sbad (e : StateError) : Prop := state_refuses H s0 c r e.
Definition sboom : Prop := seal_without_output c \/ undeclared_global H s0 c \/ ~ state_room H s0 c.

Lemma lost_seal w w' o : seal_lost w o -> brings c w' o -> w' = None \/ w' = w -> seal_without_output c.
Proof.
  intros (ty & no & a & s & Ha & Er & Eo) Hb Hw. exists w', o, ty, no, a, s. split; [exact Hb|]. split; [exact Ha|]. split; [exact Er|].
  intros out Ho. destruct Hw as [->| ->].
  - assert (X : seal_output w s out).
    { unfold seal_output in *. destruct (s_txid s); [|destruct Ho as (_ & _ & _ & [])]. exact Ho. }
    apply assign_output_spec in X. congruence.
  - apply assign_output_spec in Ho. congruence.
Qed.

Lemma on_contract_runs x ow o w' : within (x ++ [(ow, o)]) T -> brings c w' o -> w' = None \/ w' = op_witness ow ->
  forall s cs, len (ms_witnesses s) <= len (ms_witnesses s0) + len (x ++ [(ow, o)]) ->
  mget cid (ms_contracts s) = Some cs ->
    (forall ty, mget ty (cs_global cs) = None -> ~ declared H s0 c ty) ->
    (forall ty, len (known_of cs ty) <= len (globals_known s0 cid ty) + total (fun p => globals_in (snd p)) x) ->
    (forall k, len (cs_outs k cs) <= len (outputs_known s0 cid k) + total (fun p => outputs_in (snd p)) x) ->
  match on_contract cid (fun cs => add_operation H cs ow o) s with
  | (s', Ok _) => sinv (x ++ [(ow, o)]) s' | (_, Err e) => sbad e | (_, Panic) => sboom end.
Proof.
  intros Hw Hb Hw' s cs Lw Ec D G O. unfold on_contract. rewrite Ec.
  pose proof (add_operation_runs H cs ow o) as A.
  pose proof (total_within (fun p => globals_in (snd p)) _ _ Hw) as Tg.
  pose proof (total_within (fun p => outputs_in (snd p)) _ _ Hw) as To.
  rewrite total_app, total_cons in Tg, To. unfold total at 2 in Tg. unfold total at 2 in To. cbn [map list_sum fold_right snd] in Tg, To.
  destruct (add_operation H cs ow o) as [cs'|e|]; [|contradiction|].
  - destruct A as (A1 & A2 & A3). constructor; [exact Lw|]. exists cs'. cbn [ms_contracts set_states]. split; [apply mget_insert_eq|].
    split; [intros ty E; apply D, A1, E|]. split.
    + intros ty. rewrite total_app, total_cons. unfold total at 2. cbn [map list_sum fold_right snd]. specialize (A2 ty). specialize (G ty). lia.
    + intros k. rewrite total_app, total_cons. unfold total at 2. cbn [map list_sum fold_right snd]. specialize (A3 k). specialize (O k). lia.
  - assert (Hin : In (ow, o) T) by (eapply within_In; [exact Hw|]; apply in_app_iff; right; left; reflexivity).
    destruct A as [(ty & vals & Ht & E)|[(ty & E)|[(k & E)|E]]].
    + right. left. exists (ow, o), ty, vals. split; [exact Hin|]. split; [exact Ht|]. apply D, E.
    + right. right. intros R. pose proof (sr_global _ _ _ R ty) as R'. specialize (G ty). fold cid T in R'. lia.
    + right. right. intros R. pose proof (sr_out _ _ _ R k) as R'. specialize (O k). fold cid T in R'. lia.
    + left. eapply lost_seal; eassumption.
Qed.

Lemma set_witness_runs x ow o w ord s : within (x ++ [(ow, o)]) T -> sinv x s ->
  match set_witness w ord s with
  | (s', Ok _) => ms_contracts s' = ms_contracts s /\ len (ms_witnesses s') <= len (ms_witnesses s0) + len (x ++ [(ow, o)])
  | (_, Err e) => sbad e | (_, Panic) => sboom end.
Proof.
  intros Hw I. unfold set_witness, cinsert. pose proof (si_wit _ _ I) as L.
  assert (Lx : len (x ++ [(ow, o)]) = len x + 1) by (unfold len; rewrite app_length; cbn [length]; lia).
  destruct (_ <? _) eqn:El.
  - split; [reflexivity|]. cbn [ms_witnesses set_witnesses]. pose proof (len_insert_le w ord (ms_witnesses s)). lia.
  - apply N.ltb_ge in El. cbn. intros R. pose proof (sr_witness _ _ _ R) as R'. fold T in R'.
    assert (len (x ++ [(ow, o)]) <= len T) by (destruct Hw as (y & ->); unfold len; rewrite (app_length _ y); lia). lia.
Qed.

Lemma publish_runs x ow o w w' : within (x ++ [(ow, o)]) T -> brings c w' o -> w' = None \/ w' = op_witness ow ->
  (exists wb, In wb (c_bundles c) /\ wb_id wb = w) ->
  runs (sinv x) (sinv (x ++ [(ow, o)])) sbad sboom
    (do! ord <- resolve r w ;; set_witness w ord ;;! on_contract cid (fun cs => add_operation H cs ow o)).
Proof.
  intros Hw Hb Hw' Hwb s I. unfold bind at 1, resolve, lift. destruct (r w) as [ord|] eqn:Er; cbn [ok_or].
  2:{ cbn. split; [exact Er|exact Hwb]. }
  unfold bind. pose proof (set_witness_runs x ow o w ord s Hw I) as P.
  destruct (set_witness w ord s) as [s1 [u|e|]]; [|exact P|exact P]. destruct P as [P1 P2].
  destruct I as [_ (cs & E & D & G & O)]. rewrite <- P1 in E. eapply on_contract_runs; eassumption.
Qed.

Lemma mfrom_keys {V} (l : list (N * V)) : forall (m : omap N V) k, mget k (fold_left (fun m p => minsert (fst p) (snd p) m) l m) = None ->
  mget k m = None /\ mget k l = None.
Proof.
  induction l as [|[k' v] l IH]; intros m k; cbn [fold_left]; [auto|]. intros E. apply IH in E as [E1 E2]. cbn [fst snd] in E1.
  rewrite mget_insert in E1. cbn [mget]. destruct (keqb k k'); [discriminate|]. auto.
Qed.

Lemma mget_map_keys {V W} (f : V -> W) (l : list (N * V)) k : mget k (map (fun p => (fst p, f (snd p))) l) = option_map f (mget k l).
Proof. apply (mget_mmap f l). Qed.

Lemma state_runs : match update_from_consignment H c r s0 with
  | (_, Ok _) => True | (_, Err e) => state_refuses H s0 c r e
  | (_, Panic) => seal_without_output c \/ undeclared_global H s0 c \/ ~ state_room H s0 c end.
Proof.
  unfold update_from_consignment. change (contract_id H (c_genesis c)) with cid.
  pose proof (within_refl T) as Wt. unfold T at 1, published in Wt.
  set (t2 := flat_map (fun wb => map (fun t => (OWTransition (wb_id wb) (op_ty t), t)) (wb_known_transitions wb)) (c_bundles c)) in *.
  set (t3 := flat_map (fun e => match extension_witness c (op_id H e) with
                     | Some w => [(OWExtension w (op_ty e), e)] | None => [] end) (c_extensions c)) in *.
  assert (Wt' : within (([(OWGenesis, c_genesis c)] ++ t2) ++ t3) T) by exact Wt. clear Wt.
  assert (R : runs (sinv [(OWGenesis, c_genesis c)]) (sinv T) sbad sboom
    (mfor (fun wb => mfor (fun t => do! ord <- resolve r (wb_id wb) ;;
                                 add_transition H cid t (wb_id wb) ord)
                       (wb_known_transitions wb)) (c_bundles c) ;;!
     mfor (fun e => match extension_witness c (op_id H e) with
                 | Some w => do! ord <- resolve r w ;; add_extension H cid e w ord
                 | None => ret tt
                 end) (c_extensions c))).
  { eapply runs_bind with (Q := sinv ([(OWGenesis, c_genesis c)] ++ t2)).
    - apply runs_mfor with (t := T) (inv := sinv); [|eapply within_app, Wt'].
      intros wb x Hin Hx.
      replace (map (fun t => (OWTransition (wb_id wb) (op_ty t), t)) (wb_known_transitions wb))
        with (flat_map (fun t => [(OWTransition (wb_id wb) (op_ty t), t)]) (wb_known_transitions wb)) in *
        by (symmetry; induction (wb_known_transitions wb) as [|t l IH]; [reflexivity|cbn; f_equal; exact IH]).
      apply runs_mfor with (t := T) (inv := sinv); [|exact Hx].
      intros t y Ht Hy. apply publish_runs with (w' := Some (wb_id wb)); [exact Hy| |right; reflexivity|eauto].
      unfold wb_known_transitions in Ht. apply in_flat_map in Ht as (b & Hb & Ht). apply in_map_iff in Ht as ([id t'] & <- & Ht).
      eapply brings_transition; eassumption.
    - intros _. unfold T, published. fold t2 t3.
      change ((OWGenesis, c_genesis c) :: t2 ++ t3) with ((OWGenesis, c_genesis c) :: (t2 ++ t3)).
      change ((OWGenesis, c_genesis c) :: (t2 ++ t3)) with (([(OWGenesis, c_genesis c)] ++ t2) ++ t3).
      apply runs_mfor with (t := T) (inv := sinv); [|exact Wt'].
      intros e x He Hx. destruct (extension_witness c (op_id H e)) as [w|] eqn:Ew.
      + apply publish_runs with (w' := None); [exact Hx|constructor; exact He|left; reflexivity|].
        unfold extension_witness in Ew. apply find_map_Some in Ew as (l1 & wb & l2 & El & Ef & _).
        destruct (existsb _ _); [|discriminate]. apply Some_inj in Ef. exists wb. split; [|exact Ef].
        rewrite El. apply in_app_iff. right. left. reflexivity.
      + rewrite app_nil_r. apply runs_ret. }
  assert (G : forall s cs, ms_witnesses s = ms_witnesses s0 -> mget cid (ms_contracts s) = Some cs ->
    (forall ty, mget ty (cs_global cs) = None -> ~ declared H s0 c ty) ->
    (forall ty, len (known_of cs ty) <= len (globals_known s0 cid ty)) ->
    (forall k, len (cs_outs k cs) <= len (outputs_known s0 cid k)) ->
    match add_genesis H cid (c_genesis c) s with
    | (s', Ok _) => sinv [(OWGenesis, c_genesis c)] s' | (_, Err e) => sbad e | (_, Panic) => sboom end).
  { intros s cs Ew Ec D Gk Ok'. apply (on_contract_runs [] OWGenesis (c_genesis c) None) with (cs := cs); auto.
    - cbn [app]. exists (t2 ++ t3). reflexivity.
    - constructor.
    - rewrite Ew. lia.
    - intros ty. specialize (Gk ty). lia.
    - intros k. specialize (Ok' k). lia. }
  assert (F : forall s, ms_witnesses s = ms_witnesses s0 -> (exists cs, mget cid (ms_contracts s) = Some cs /\
    (forall ty, mget ty (cs_global cs) = None -> ~ declared H s0 c ty) /\
    (forall ty, len (known_of cs ty) <= len (globals_known s0 cid ty)) /\
    (forall k, len (cs_outs k cs) <= len (outputs_known s0 cid k))) ->
    match (add_genesis H cid (c_genesis c) ;;!
      mfor (fun wb => mfor (fun t => do! ord <- resolve r (wb_id wb) ;;
                                 add_transition H cid t (wb_id wb) ord)
                       (wb_known_transitions wb)) (c_bundles c) ;;!
     mfor (fun e => match extension_witness c (op_id H e) with
                 | Some w => do! ord <- resolve r w ;; add_extension H cid e w ord
                 | None => ret tt
                 end) (c_extensions c)) s with
    | (_, Ok _) => True | (_, Err e) => sbad e | (_, Panic) => sboom end).
  { intros s Ew (cs & E1 & E2 & E3 & E4). unfold bind at 1. pose proof (G s cs Ew E1 E2 E3 E4) as Gs.
    destruct (add_genesis H cid (c_genesis c) s) as [s1 [u|e|]]; [|exact Gs|exact Gs].
    pose proof (R s1 Gs) as Rs. destruct (bind _ _ s1) as [s2 [u2|e|]]; [exact Logic.I|exact Rs|exact Rs]. }
  unfold st_register. change (contract_id H (c_genesis c)) with cid. unfold bind at 1, bind at 1, get at 1, bind at 1.
  destruct (mhas cid (ms_contracts s0)) eqn:Eh.
  - cbn [ret]. apply mhas_true in Eh as (cs & Ec). specialize (F s0 eq_refl).
    unfold bind at 1 in F. apply F. exists cs. split; [exact Ec|].
    unfold declared, globals_known, outputs_known, known_of. fold cid. rewrite Ec. split; [|split].
    + intros ty E (g & E'). congruence.
    + intros ty. lia.
    + intros k. lia.
  - apply mhas_false in Eh. unfold cinsert. destruct (len (ms_contracts s0) <? U8MAX) eqn:El.
    + cbn [put]. specialize (F (set_states s0 (minsert cid (cs_new (c_schema c) cid) (ms_contracts s0))) eq_refl).
      unfold bind at 1 in F. apply F. exists (cs_new (c_schema c) cid). cbn [ms_contracts set_states]. split; [apply mget_insert_eq|].
      unfold declared, globals_known, outputs_known. fold cid. rewrite Eh. split; [|split].
      * intros ty E (n & E'). unfold cs_new in E. cbn [cs_global] in E. unfold mfrom in E. apply mfrom_keys in E as [_ E].
        rewrite (mget_map_keys (fun n => {| mg_known := []; mg_limit := n |})) in E. rewrite E' in E. discriminate.
      * intros ty. unfold known_of. destruct (mget ty _) as [g|] eqn:E; [|lia].
        assert (Eg : mg_known g = []); [|rewrite Eg; lia].
        unfold cs_new in E. cbn [cs_global] in E.
        assert (Z : forall (l : list (N * N)) (m : omap N MemGlobal), (forall k g, mget k m = Some g -> mg_known g = []) ->
          forall k g, mget k (fold_left (fun m p => minsert (fst p) (snd p) m) (map (fun p : N * N => (fst p, {| mg_known := []; mg_limit := snd p |})) l) m) = Some g -> mg_known g = []).
        { clear. induction l as [|[k' n] l IH]; intros m Hm k g; cbn [map fold_left]; [apply Hm|]. apply IH.
          intros k2 g2. cbn [fst snd]. rewrite mget_insert. destruct (keqb k2 k'); [intros E; apply Some_inj in E as <-; reflexivity|apply Hm]. }
        eapply (Z (sch_globals (c_schema c)) []); [discriminate|exact E].
      * intros k. destruct k; cbn; lia.
    + apply N.ltb_ge in El. cbn. intros R'. pose proof (sr_contract _ _ _ R' Eh). lia.
Qed.
End State.
