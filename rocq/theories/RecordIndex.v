(** Proofs for C88: the index *)
From Verif Require Import Base StM Core MergeSpec ContainerModel ContainerSpec PIndexModel PIndexSpec PIndexProofs.
From Verif Require Import StateModel StashModel StashSpec StockModel FasciaProps AcceptSpec AcceptProofs RecordSpec PIndexSpec.
Local Open Scope N_scope.

Lemma count_within {X} (f : X -> bool) x t : within x t -> count f x <= count f t.
Proof. intros (y & ->). rewrite count_app. lia. Qed.

Section Index.
Context (w : WitnessId) (T : list Fact) (lost : Prop) (s0 : MemIndex).

Record inv (x : list Fact) (s : MemIndex) : Prop := {
  iv_contract : forall cid, mget cid (mi_contracts s) = None <-> mget cid (mi_contracts s0) = None;
  iv_op : len (mi_op_bundle s) <= len (mi_op_bundle s0) + count is_op x;
  iv_bundle : len (mi_bundle_contract s) <= len (mi_bundle_contract s0) + count is_bundle x;
  iv_bundle' : len (mi_bundle_witness s) <= len (mi_bundle_witness s0) + count is_bundle x;
  iv_term : len (mi_terminals s) <= len (mi_terminals s0) + count is_term x;
  iv_out : forall cid, len (outs_known s cid) <= len (outs_known s0 cid) + count (is_out_of cid) x;
  iv_witness : forall bid, len (or_empty (mget bid (mi_bundle_witness s))) <=
                 len (or_empty (mget bid (mi_bundle_witness s0))) + count (is_witness_of bid) x;
  iv_secret : forall sec, len (or_empty (mget sec (mi_terminals s))) <=
                 len (or_empty (mget sec (mi_terminals s0))) + count (is_term_of sec) x;
  iv_seal : forall cid out, len (or_empty (mget out (outs_known s cid))) <=
                 len (or_empty (mget out (outs_known s0 cid))) + count (is_out_of_at cid out) x;
  iv_from : forall opid bid, mget opid (mi_op_bundle s) = Some bid -> mget opid (mi_op_bundle s0) = Some bid \/ In (FOp opid bid) x;
  iv_from' : forall bid id, mget bid (mi_bundle_contract s) = Some id -> mget bid (mi_bundle_contract s0) = Some id \/ In (FBundle bid id) x
}.

Definition bad (e : IndexError) : Prop :=
  match e with
  | IndexFull => ~ facts_room s0 T
  | PIndexModel.ContractAbsent cid => mget cid (mi_contracts s0) = None /\ exists bid, In (FBundle bid cid) T
  | DistinctBundleContract bid alt cid =>
      alt <> cid /\ (mget bid (mi_bundle_contract s0) = Some alt \/ In (FBundle bid alt) T) /\ In (FBundle bid cid) T
  | DistinctBundleOp opid alt bid =>
      alt <> bid /\ (mget opid (mi_op_bundle s0) = Some alt \/ In (FOp opid alt) T) /\ In (FOp opid bid) T
  | _ => False
  end.
Definition boom : Prop := lost.

Ltac cnt := rewrite ?count_app, ?count_cons, ?count_nil; cbn [is_op is_bundle is_term is_out_of is_witness_of is_term_of is_out_of_at].
Ltac cnt_in Hx := rewrite ?count_app, ?count_cons, ?count_nil in Hx; cbn [is_op is_bundle is_term is_out_of is_witness_of is_term_of is_out_of_at] in Hx.

Lemma outs_bc cid s m : outs_known (set_bundle_contract s m) cid = outs_known s cid.
Proof. reflexivity. Qed.
Lemma outs_bw cid s m : outs_known (set_bundle_witness s m) cid = outs_known s cid.
Proof. reflexivity. Qed.
Lemma outs_op cid s m : outs_known (set_op_bundle s m) cid = outs_known s cid.
Proof. reflexivity. Qed.
Lemma outs_te cid s m : outs_known (set_terminals s m) cid = outs_known s cid.
Proof. reflexivity. Qed.


Lemma register_bundle_runs cid x bid :
  within (x ++ [FBundle bid cid; FWitness bid w]) T ->
  runs (inv x) (inv (x ++ [FBundle bid cid; FWitness bid w])) bad boom (register_bundle bid w cid).
Proof.
  intros Hw. unfold register_bundle. apply runs_get. intros s I.
  assert (W : forall f, count f (x ++ [FBundle bid cid; FWitness bid w]) <= count f T) by (intros f; apply count_within, Hw).
  assert (Hin : In (FBundle bid cid) T).
  { eapply within_In; [exact Hw|]. apply in_app_iff. right. left. reflexivity. }
  assert (C : forall alt, mget bid (mi_bundle_contract s) = Some alt -> alt <> cid -> bad (DistinctBundleContract bid alt cid)).
  { intros alt E Ne. split; [exact Ne|]. split; [|exact Hin].
    destruct (iv_from' _ _ I _ _ E) as [E'|E']; [left; exact E'|right]. eapply within_In; [eapply within_app, Hw|exact E']. }
  assert (G : match (push_witness bid w ;;! (do! s <- get ;;
      match cinsert U24MAX bid cid (mi_bundle_contract s) with
      | Some m => put (set_bundle_contract s m) ;;! ret (negb (mhas bid (mi_bundle_contract s)))
      | None => fail IndexFull end)) s with
    | (s', Ok _) => inv (x ++ [FBundle bid cid; FWitness bid w]) s' | (_, Err e) => bad e | (_, Panic) => boom end).
  { unfold push_witness, bind, get, put, ret, fail, cinsert, cpush.
    destruct (len (mi_bundle_witness s) <? U24MAX) eqn:E1.
    2:{ apply N.ltb_ge in E1. hnf. intros R. pose proof (fr_bundle' _ _ R) as R'. pose proof (iv_bundle' _ _ I) as I'.
        specialize (W is_bundle). cnt_in W. lia. }
    change (match mget bid (mi_bundle_witness s) with Some ws => ws | None => [] end) with (or_empty (mget bid (mi_bundle_witness s))).
    destruct (len (or_empty (mget bid (mi_bundle_witness s))) <? U8MAX) eqn:E2.
    2:{ apply N.ltb_ge in E2. hnf. intros R. pose proof (fr_witness _ _ R bid) as R'. pose proof (iv_witness _ _ I bid) as I'.
        specialize (W (is_witness_of bid)). cnt_in W. rewrite N.eqb_refl in W. lia. }
    cbn [mi_bundle_contract set_bundle_witness].
    destruct (len (mi_bundle_contract s) <? U24MAX) eqn:E3.
    2:{ apply N.ltb_ge in E3. hnf. intros R. pose proof (fr_bundle _ _ R) as R'. pose proof (iv_bundle _ _ I) as I'.
        specialize (W is_bundle). cnt_in W. lia. }
    destruct I. constructor; cbn [mi_op_bundle mi_bundle_contract mi_bundle_witness mi_contracts mi_terminals set_bundle_contract set_bundle_witness]; cnt.
    - assumption.
    - lia.
    - pose proof (len_insert_le bid cid (mi_bundle_contract s)). lia.
    - pose proof (len_insert_le bid (sinsert w (or_empty (mget bid (mi_bundle_witness s)))) (mi_bundle_witness s)). lia.
    - lia.
    - intros c. cnt. rewrite ?outs_bc, ?outs_bw, ?outs_op, ?outs_te. specialize (iv_out0 c). lia.
    - intros b'. cnt. rewrite mget_insert. destruct (keqb b' bid) eqn:Kb.
      + apply keqb_true in Kb as ->. rewrite N.eqb_refl. cbn [or_empty]. pose proof (sinsert_len_le w (or_empty (mget bid (mi_bundle_witness s)))).
        specialize (iv_witness0 bid). lia.
      + specialize (iv_witness0 b'). lia.
    - intros sec. cnt. specialize (iv_secret0 sec). lia.
    - intros c out. cnt. rewrite ?outs_bc, ?outs_bw, ?outs_op, ?outs_te. specialize (iv_seal0 c out). lia.
    - intros opid bid' E. destruct (iv_from0 _ _ E) as [X|X]; [left; exact X|right; apply in_app_iff; left; exact X].
    - intros b' id E. rewrite mget_insert in E. destruct (keqb b' bid) eqn:Kb.
      + apply keqb_true in Kb as ->. apply Some_inj in E as <-. right. apply in_app_iff. right. left. reflexivity.
      + destruct (iv_from'0 _ _ E) as [X|X]; [left; exact X|right; apply in_app_iff; left; exact X]. }
  unfold bind at 1. destruct (mget bid (mi_bundle_contract s)) as [alt|] eqn:Ec; [|exact G].
  destruct (N.eqb_spec alt cid) as [->|Ne]; [exact G|]. cbn. apply C; auto.
Qed.

Lemma register_operation_runs x opid bid :
  within (x ++ [FOp opid bid]) T ->
  runs (inv x) (inv (x ++ [FOp opid bid])) bad boom (register_operation opid bid).
Proof.
  intros Hw. unfold register_operation. apply runs_get. intros s I.
  assert (W : forall f, count f (x ++ [FOp opid bid]) <= count f T) by (intros f; apply count_within, Hw).
  assert (Hin : In (FOp opid bid) T).
  { eapply within_In; [exact Hw|]. apply in_app_iff. right. left. reflexivity. }
  assert (G : match match cinsert U24MAX opid bid (mi_op_bundle s) with
      | Some m => put (set_op_bundle s m) ;;! ret (negb (mhas opid (mi_op_bundle s)))
      | None => fail IndexFull end s with
    | (s', Ok _) => inv (x ++ [FOp opid bid]) s' | (_, Err e) => bad e | (_, Panic) => boom end).
  { unfold bind, put, ret, fail, cinsert.
    destruct (len (mi_op_bundle s) <? U24MAX) eqn:E1.
    2:{ apply N.ltb_ge in E1. hnf. intros R. pose proof (fr_op _ _ R) as R'. pose proof (iv_op _ _ I) as I'.
        specialize (W is_op). cnt_in W. lia. }
    destruct I. constructor; cbn [mi_op_bundle mi_bundle_contract mi_bundle_witness mi_contracts mi_terminals set_op_bundle]; cnt.
    - assumption.
    - pose proof (len_insert_le opid bid (mi_op_bundle s)). lia.
    - lia.
    - lia.
    - lia.
    - intros c. cnt. rewrite ?outs_bc, ?outs_bw, ?outs_op, ?outs_te. specialize (iv_out0 c). lia.
    - intros b'. cnt. specialize (iv_witness0 b'). lia.
    - intros sec. cnt. specialize (iv_secret0 sec). lia.
    - intros c out. cnt. rewrite ?outs_bc, ?outs_bw, ?outs_op, ?outs_te. specialize (iv_seal0 c out). lia.
    - intros o b' E. rewrite mget_insert in E. destruct (keqb o opid) eqn:Ko.
      + apply keqb_true in Ko as ->. apply Some_inj in E as <-. right. apply in_app_iff. right. left. reflexivity.
      + destruct (iv_from0 _ _ E) as [X|X]; [left; exact X|right; apply in_app_iff; left; exact X].
    - intros b' id E. destruct (iv_from'0 _ _ E) as [X|X]; [left; exact X|right; apply in_app_iff; left; exact X]. }
  unfold bind at 1. destruct (mget opid (mi_op_bundle s)) as [alt|] eqn:Ec; [|exact G].
  destruct (N.eqb_spec alt bid) as [->|Ne]; [exact G|]. cbn. split; [exact Ne|].
  split; [|exact Hin].
  destruct (iv_from _ _ I _ _ Ec) as [X|X]; [left; exact X|right].
  eapply within_In; [eapply within_app, Hw|exact X].
Qed.

Lemma put_out_runs cid x out oo : (exists bid, In (FBundle bid cid) T) -> within (x ++ [FOut cid out oo]) T ->
  runs (inv x) (inv (x ++ [FOut cid out oo])) bad boom (put_out cid out oo).
Proof.
  intros Hbd Hw s I.
  assert (W : forall f, count f (x ++ [FOut cid out oo]) <= count f T) by (intros f; apply count_within, Hw).
  unfold put_out. destruct (mget cid (mi_contracts s)) as [ci|] eqn:Ec; [|split; [apply (iv_contract _ _ I), Ec|exact Hbd]].
  assert (Eo : outs_known s cid = ci_outs ci) by (unfold outs_known; rewrite Ec; reflexivity).
  assert (G : forall m : omap OutSeal (oset Opout), len m <= len (ci_outs ci) + 1 ->
     (forall o, len (or_empty (mget o m)) <= len (or_empty (mget o (ci_outs ci))) + (if keqb out o then 1 else 0)) ->
     inv (x ++ [FOut cid out oo]) (set_contracts s (minsert cid {| ci_public := ci_public ci; ci_outs := m |} (mi_contracts s)))).
  { intros m Lm Gm. set (s1 := set_contracts s (minsert cid {| ci_public := ci_public ci; ci_outs := m |} (mi_contracts s))).
    assert (Eo' : forall c, outs_known s1 c = if c =? cid then m else outs_known s c).
    { intros c. unfold outs_known, s1. cbn [mi_contracts set_contracts]. rewrite mget_insert.
      destruct (N.eqb_spec c cid) as [->|Nc]; [rewrite keqb_refl; reflexivity|]. apply keqb_neq in Nc as ->. reflexivity. }
    destruct I. constructor; cbn [mi_op_bundle mi_bundle_contract mi_bundle_witness mi_contracts mi_terminals set_contracts s1]; cnt.
    - intros c. rewrite mget_insert. destruct (keqb c cid) eqn:Ek; [|apply iv_contract0].
      apply keqb_true in Ek as ->. rewrite <- iv_contract0, Ec. split; discriminate.
    - lia.
    - lia.
    - lia.
    - lia.
    - intros c. cnt. rewrite Eo'. specialize (iv_out0 c). rewrite (N.eqb_sym cid c). destruct (N.eqb_spec c cid) as [->|]; [|lia].
      rewrite Eo in iv_out0. lia.
    - intros b'. cnt. specialize (iv_witness0 b'). lia.
    - intros sec. cnt. specialize (iv_secret0 sec). lia.
    - intros c o. cnt. rewrite Eo'. specialize (iv_seal0 c o). rewrite (N.eqb_sym cid c). destruct (N.eqb_spec c cid) as [->|]; cbn [andb]; [|lia].
      rewrite Eo in iv_seal0. specialize (Gm o). lia.
    - intros opid bid' E. destruct (iv_from0 _ _ E) as [X|X]; [left; exact X|right; apply in_app_iff; left; exact X].
    - intros b' id E. destruct (iv_from'0 _ _ E) as [X|X]; [left; exact X|right; apply in_app_iff; left; exact X]. }
  destruct (mget out (ci_outs ci)) as [os|] eqn:Em.
  - unfold cpush. destruct (len os <? U24MAX) eqn:El.
    + apply G; [apply len_insert_le|]. intros o. rewrite mget_insert. destruct (keqb o out) eqn:Ko.
      * apply keqb_true in Ko as ->. rewrite keqb_refl, Em. cbn [or_empty]. apply sinsert_len_le.
      * lia.
    + apply N.ltb_ge in El. hnf. intros R. pose proof (fr_seal _ _ R cid out) as R'. pose proof (iv_seal _ _ I cid out) as I'.
      rewrite Eo, Em in I'. cbn [or_empty] in I'. specialize (W (is_out_of_at cid out)). cnt_in W. rewrite N.eqb_refl, keqb_refl in W. cbn [andb] in W. unfold oset, omap in *. lia.
  - unfold cinsert. destruct (_ <? U24MAX) eqn:El.
    + apply G; [apply len_insert_le|]. intros o. rewrite mget_insert. destruct (keqb o out) eqn:Ko.
      * apply keqb_true in Ko as ->. rewrite keqb_refl, Em. cbn [or_empty]. unfold len. simpl. lia.
      * lia.
    + apply N.ltb_ge in El. hnf. intros R. pose proof (fr_out _ _ R cid) as R'. pose proof (iv_out _ _ I cid) as I'.
      rewrite Eo in I'. specialize (W (is_out_of cid)). cnt_in W. rewrite N.eqb_refl in W. unfold oset, omap in *. lia.
Qed.

Lemma add_terminal_runs x sec oo : within (x ++ [FTerm sec oo]) T ->
  runs (inv x) (inv (x ++ [FTerm sec oo])) bad boom (add_terminal sec oo).
Proof.
  intros Hw s I.
  assert (W : forall f, count f (x ++ [FTerm sec oo]) <= count f T) by (intros f; apply count_within, Hw).
  pose proof (mremove_len_le sec (mi_terminals s)) as Lr.
  assert (G : forall m : omap N (oset Opout), len m <= len (mi_terminals s) + 1 ->
     (forall o, len (or_empty (mget o m)) <= len (or_empty (mget o (mi_terminals s))) + (if sec =? o then 1 else 0)) ->
     inv (x ++ [FTerm sec oo]) (set_terminals s m)).
  { intros m Lm Gm.
    destruct I. constructor; cbn [mi_op_bundle mi_bundle_contract mi_bundle_witness mi_contracts mi_terminals set_terminals]; cnt.
    - assumption.
    - lia.
    - lia.
    - lia.
    - lia.
    - intros c. cnt. rewrite ?outs_bc, ?outs_bw, ?outs_op, ?outs_te. specialize (iv_out0 c). lia.
    - intros b'. cnt. specialize (iv_witness0 b'). lia.
    - intros o. cnt. specialize (iv_secret0 o). specialize (Gm o). lia.
    - intros c o. cnt. rewrite ?outs_bc, ?outs_bw, ?outs_op, ?outs_te. specialize (iv_seal0 c o). lia.
    - intros opid bid' E. destruct (iv_from0 _ _ E) as [X|X]; [left; exact X|right; apply in_app_iff; left; exact X].
    - intros b' id E. destruct (iv_from'0 _ _ E) as [X|X]; [left; exact X|right; apply in_app_iff; left; exact X]. }
  assert (Gr : forall o, len (or_empty (mget o (mremove sec (mi_terminals s)))) <= len (or_empty (mget o (mi_terminals s)))).
  { intros o. rewrite mget_remove. destruct (keqb o sec); [unfold len; simpl; lia|lia]. }
  unfold add_terminal. destruct (mget sec (mi_terminals s)) as [os|] eqn:Em.
  - unfold cpush. destruct (len os <? U8MAX) eqn:El.
    + unfold cinsert. destruct (_ <? U24MAX).
      * apply G.
        -- pose proof (len_insert_le sec (sinsert oo os) (mremove sec (mi_terminals s))) as L1. unfold oset, omap in *. lia.
        -- intros o. rewrite mget_insert. destruct (keqb o sec) eqn:Ko.
           ++ apply keqb_true in Ko as ->. rewrite N.eqb_refl, Em. cbn [or_empty]. apply sinsert_len_le.
           ++ specialize (Gr o). lia.
      * apply G; [lia|]. intros o. specialize (Gr o). lia.
    + apply N.ltb_ge in El. hnf. intros R. pose proof (fr_secret _ _ R sec) as R'. pose proof (iv_secret _ _ I sec) as I'.
      rewrite Em in I'. cbn [or_empty] in I'. specialize (W (is_term_of sec)). cnt_in W. rewrite N.eqb_refl in W. lia.
  - unfold cinsert. destruct (_ <? U24MAX) eqn:El.
    + apply G.
      * pose proof (len_insert_le sec [oo] (mremove sec (mi_terminals s))) as L1. unfold oset, omap in *. lia.
      * intros o. rewrite mget_insert. destruct (keqb o sec) eqn:Ko.
        -- apply keqb_true in Ko as ->. rewrite N.eqb_refl, Em. cbn [or_empty]. unfold len; simpl; lia.
        -- specialize (Gr o). lia.
    + apply N.ltb_ge in El. hnf. intros R. pose proof (fr_term _ _ R) as R'. pose proof (iv_term _ _ I) as I'.
      specialize (W is_term). cnt_in W. unfold oset, omap in *. lia.
Qed.

Lemma index_assignments_runs cid x opid ty o ta : (exists bid, In (FBundle bid cid) T) -> In (ty, ta) (op_assigns o) ->
  (forall ty no a seal, assigned o ty no a -> revealed_seal a = Some seal -> no_output (Some w) seal -> lost) ->
  let l := ta_list ta in
  within (x ++ (out_facts cid (Some w) opid ty l ++ term_facts opid ty l)) T ->
  runs (inv x) (inv (x ++ (out_facts cid (Some w) opid ty l ++ term_facts opid ty l))) bad boom (index_assignments cid l opid ty (Some w)).
Proof.
  intros Hbd Hta Hb l Hw. unfold index_assignments. apply runs_get. intros s I.
  destruct (mhas cid (mi_contracts s)) eqn:Eh.
  2:{ apply mhas_false in Eh. unfold bind at 1. cbn. split; [apply (iv_contract _ _ I), Eh|exact Hbd]. }
  unfold bind at 1. cbn [ret].
  rewrite app_assoc in Hw |- *.
  refine (runs_bind bad boom (inv x) (inv (x ++ out_facts cid (Some w) opid ty l)) _ _ _ _ _ s I).
  - unfold out_facts. apply runs_mfor with (t := T) (inv := inv); [|eapply within_app, Hw].
    intros [no a] y Hin Hy. apply enumerate_In in Hin. cbn [fst snd] in Hy |- *.
    assert (Z : forall seal, revealed_seal a = Some seal -> assign_output (Some w) seal = None -> boom).
    { intros seal Er Ea. apply (Hb ty no a seal); [exists ta; auto|exact Er|].
      intros out Ho. apply assign_output_spec in Ho. congruence. }
    destruct a; cbn [revealed_seal] in *; try (rewrite app_nil_r; apply runs_ret).
    + destruct (assign_output (Some w) seal) as [out|] eqn:Ea; [apply put_out_runs; [exact Hbd|exact Hy]|]. intros s' _. cbn. eapply Z; [reflexivity|exact Ea].
    + destruct (assign_output (Some w) seal) as [out|] eqn:Ea; [apply put_out_runs; [exact Hbd|exact Hy]|]. intros s' _. cbn. eapply Z; [reflexivity|exact Ea].
  - intros _. unfold extend_terminals, term_facts. apply runs_mfor with (t := T) (inv := inv); [|exact Hw].
    intros [no a] y Hin Hy. cbn [fst snd] in Hy |- *.
    destruct a; cbn [secret_of] in *; try (rewrite app_nil_r; apply runs_ret); apply add_terminal_runs, Hy.
Qed.

Lemma bundle_runs H cid x b :
  (forall opid t ty no a seal, In (opid, t) (b_known b) -> assigned t ty no a -> revealed_seal a = Some seal -> no_output (Some w) seal -> lost) ->
  within (x ++ bundle_facts H cid b w) T ->
  runs (inv x) (inv (x ++ bundle_facts H cid b w)) bad boom (pindex_bundle H cid b w).
Proof.
  intros Hb Hw. assert (Hbd : exists bid, In (FBundle bid cid) T).
  { exists (bundle_id H b). eapply within_In; [exact Hw|]. apply in_app_iff. right. left. reflexivity. }
  unfold pindex_bundle, bundle_facts in *. rewrite app_assoc in Hw |- *. eapply runs_bind.
  - apply register_bundle_runs. eapply within_app, Hw.
  - intros _. apply runs_mfor with (t := T) (inv := inv); [|exact Hw].
    intros [opid t] y Hin Hy. cbn [fst snd] in Hy |- *. rewrite app_assoc in Hy |- *. eapply runs_bind.
    + apply register_operation_runs. eapply within_app, Hy.
    + intros _. unfold index_op_assigns, op_facts. apply runs_mfor with (t := T) (inv := inv); [|exact Hy].
      intros [ty ta] z Hta Hz. apply index_assignments_runs with (o := t); try assumption.
      intros ty' no a seal. apply Hb with (opid := opid). exact Hin.
Qed.

Lemma inv_start : inv [] s0.
Proof. constructor; try (intros; rewrite ?count_nil; lia); auto. intros c. reflexivity. Qed.
End Index.
