(** Proofs for C86: the generic part and the index *)
From Verif Require Import Base StM Core MergeSpec ContainerModel ContainerSpec PIndexModel PIndexSpec PIndexProofs.
From Verif Require Import StateModel StashModel StashSpec StockModel AcceptSpec PIndexSpec.
Local Open Scope N_scope.

(** ** Counting *)

Lemma sinsert_len_le {K} `{OrdKey K} (k : K) s : len (sinsert k s) <= len s + 1.
Proof.
  induction s as [|y s IH]; cbn [sinsert]; [unfold len; simpl; lia|]. destruct (cmp k y); unfold len in *; cbn [length] in *; lia.
Qed.

Lemma count_app {A} (f : A -> bool) a b : count f (a ++ b) = count f a + count f b.
Proof. unfold count, len. rewrite filter_app, app_length. lia. Qed.
Lemma count_cons {A} (f : A -> bool) x l : count f (x :: l) = (if f x then 1 else 0) + count f l.
Proof. unfold count, len. cbn [filter]. destruct (f x); cbn [length]; lia. Qed.
Lemma count_nil {A} (f : A -> bool) : count f [] = 0.
Proof. reflexivity. Qed.

(** ** Loops which use up a list *)

Definition within {X} (x t : list X) : Prop := exists y, t = x ++ y.

Lemma within_app {X} (x y t : list X) : within (x ++ y) t -> within x t.
Proof. intros (z & ->). exists (y ++ z). rewrite app_assoc. reflexivity. Qed.
Lemma within_refl {X} (t : list X) : within t t.
Proof. exists []. rewrite app_nil_r. reflexivity. Qed.

Definition runs {S E A} (P Q : S -> Prop) (bad : E -> Prop) (boom : Prop) (m : M S E A) : Prop :=
  forall s, P s -> match m s with (s', Ok _) => Q s' | (_, Err e) => bad e | (_, Panic) => boom end.

Section Runs.
Context {S E : Type} (bad : E -> Prop) (boom : Prop).

Lemma runs_ret {A} (P : S -> Prop) (a : A) : runs P P bad boom (ret a).
Proof. intros s Hs. exact Hs. Qed.

Lemma runs_bind {A B} (P Q R : S -> Prop) (m : M S E A) (k : A -> M S E B) :
  runs P Q bad boom m -> (forall a, runs Q R bad boom (k a)) -> runs P R bad boom (bind m k).
Proof.
  intros Hm Hk s Hs. specialize (Hm s Hs). unfold bind. destruct (m s) as [s1 [a|e|]]; [apply Hk, Hm|exact Hm|exact Hm].
Qed.

Lemma runs_get {A} (P Q : S -> Prop) (k : S -> M S E A) :
  (forall s, P s -> match k s s with (s', Ok _) => Q s' | (_, Err e) => bad e | (_, Panic) => boom end) ->
  runs P Q bad boom (bind get k).
Proof. intros Hk s Hs. unfold bind, get. apply Hk, Hs. Qed.

(** A loop, where what was used up so far is counted *)
Lemma runs_mfor {A X} (t : list X) (inv : list X -> S -> Prop) (f : A -> M S E unit) (g : A -> list X) l : forall x,
  (forall a x, In a l -> within (x ++ g a) t -> runs (inv x) (inv (x ++ g a)) bad boom (f a)) ->
  within (x ++ flat_map g l) t ->
  runs (inv x) (inv (x ++ flat_map g l)) bad boom (mfor f l).
Proof.
  induction l as [|a l IH]; intros x Hf Hw; cbn [mfor flat_map].
  - rewrite app_nil_r. apply runs_ret.
  - cbn [flat_map] in Hw. rewrite app_assoc in Hw |- *. eapply runs_bind.
    + apply Hf; [left; reflexivity|]. eapply within_app, Hw.
    + intros _. apply IH; [|exact Hw]. intros b y Hb. apply Hf. right. exact Hb.
Qed.
End Runs.

(** ** The facts of a consignment *)

Lemma out_facts_In cid w opid ty l f : In f (out_facts cid w opid ty l) <->
  exists no a s out, nth_error l no = Some a /\ revealed_seal a = Some s /\ seal_output w s out /\
    f = FOut cid out {| oo_op := opid; oo_ty := ty; oo_no := N.of_nat no |}.
Proof.
  unfold out_facts. rewrite in_flat_map. split.
  - intros ([no a] & Hin & Hf). apply enumerate_In in Hin. cbn [fst snd] in Hf.
    destruct (revealed_seal a) as [s|] eqn:Es; [|destruct Hf]. destruct (assign_output w s) as [out|] eqn:Eo; [|destruct Hf].
    destruct Hf as [<-|[]]. apply assign_output_spec in Eo. exists no, a, s, out. auto.
  - intros (no & a & s & out & Hn & Es & Eo & ->). exists (no, a). split; [apply enumerate_In, Hn|]. cbn [fst snd].
    apply assign_output_spec in Eo. rewrite Es, Eo. left. reflexivity.
Qed.

Lemma term_facts_In opid ty l f : In f (term_facts opid ty l) <->
  exists no a sec, nth_error l no = Some a /\ secret_of a = Some sec /\
    f = FTerm sec {| oo_op := opid; oo_ty := ty; oo_no := N.of_nat no |}.
Proof.
  unfold term_facts. rewrite in_flat_map. split.
  - intros ([no a] & Hin & Hf). apply enumerate_In in Hin. cbn [fst snd] in Hf.
    destruct (secret_of a) as [s|] eqn:Es; [|destruct Hf].
    destruct Hf as [<-|[]]. exists no, a, s. auto.
  - intros (no & a & s & Hn & Es & ->). exists (no, a). split; [apply enumerate_In, Hn|]. cbn [fst snd].
    rewrite Es. left. reflexivity.
Qed.

Lemma op_facts_In cid opid w o f : In f (op_facts cid opid w o) <-> op_announces cid opid w o f.
Proof.
  unfold op_facts, op_announces, assigned. rewrite in_flat_map. split.
  - intros ([ty ta] & Hin & Hf). apply in_app_iff in Hf as [Hf|Hf]; cbn [fst snd] in Hf.
    + apply out_facts_In in Hf as (no & a & s & out & Hn & Es & Eo & ->).
      exists ty, no, a. split; [exists ta; auto|]. left. exists s, out. auto.
    + apply term_facts_In in Hf as (no & a & s & Hn & Es & ->).
      exists ty, no, a. split; [exists ta; auto|]. right. exists s. auto.
  - intros (ty & no & a & (ta & Hin & Hn) & [(s & out & Es & Eo & ->)|(sec & Es & ->)]); exists (ty, ta); (split; [exact Hin|]);
      apply in_app_iff; cbn [fst snd].
    + left. apply out_facts_In. exists no, a, s, out. auto.
    + right. apply term_facts_In. exists no, a, sec. auto.
Qed.

Lemma bundle_facts_In H cid b w f : In f (bundle_facts H cid b w) <-> bundle_announces H cid b w f.
Proof.
  unfold bundle_facts, bundle_announces. cbn [app].
  split.
  - intros [<-|[<-|Hf]]; auto. apply in_flat_map in Hf as ([id t] & Hin & [<-|Hf]); right; right; exists id, t; (split; [exact Hin|]).
    + left. reflexivity.
    + right. apply op_facts_In, Hf.
  - intros [->|[->|(id & t & Hin & Hf)]]; [left; reflexivity|right; left; reflexivity|]. right. right.
    apply in_flat_map. exists (id, t). split; [exact Hin|]. destruct Hf as [->|Hf]; [left; reflexivity|right].
    apply op_facts_In, Hf.
Qed.

Lemma facts_In H c f : In f (facts H c) <-> consignment_announces H c f /\ f <> FContract (contract_of H c).
Proof.
  unfold facts, consignment_announces. fold (contract_of H c). set (cid := contract_of H c).
  rewrite !in_app_iff, !in_flat_map. split.
  - intros [Hf|[(e & He & Hf)|(wb & Hw & Hf)]].
    + apply op_facts_In in Hf. split; [auto|]. intros ->. destruct Hf as (ty & no & a & _ & [(s & out & _ & _ & E)|(x & _ & E)]); discriminate.
    + apply op_facts_In in Hf. split; [right; right; left; eauto|].
      intros ->. destruct Hf as (ty & no & a & _ & [(s & out & _ & _ & E)|(x & _ & E)]); discriminate.
    + apply in_flat_map in Hf as (b & Hb & Hf). apply bundle_facts_In in Hf. split; [right; right; right; eauto|].
      intros ->. destruct Hf as [E|[E|(id & t & _ & [E|(ty & no & a & _ & [(s & out & _ & _ & E)|(x & _ & E)])])]]; discriminate.
  - intros [[->|[Hf|[(e & He & Hf)|(wb & b & Hw & Hb & Hf)]]] Hn]; [destruct Hn; reflexivity|..].
    + left. apply op_facts_In, Hf.
    + right. left. exists e. split; [exact He|]. apply op_facts_In, Hf.
    + right. right. exists wb. split; [exact Hw|]. apply in_flat_map. exists b. split; [exact Hb|]. apply bundle_facts_In, Hf.
Qed.

Lemma within_In {X} (x t : list X) a : within x t -> In a x -> In a t.
Proof. intros (y & ->) Hin. apply in_app_iff. left. exact Hin. Qed.

(** ** The index *)

Section Index.
Context (H : Hashes) (c : Consignment) (s0 : MemIndex).
Let cid := contract_of H c.
Let T := facts H c.

Record inv (x : list Fact) (s : MemIndex) : Prop := {
  iv_contract : mget cid (mi_contracts s) <> None;
  iv_op : len (mi_op_bundle s) <= len (mi_op_bundle s0) + count is_op x;
  iv_bundle : len (mi_bundle_contract s) <= len (mi_bundle_contract s0) + count is_bundle x;
  iv_bundle' : len (mi_bundle_witness s) <= len (mi_bundle_witness s0) + count is_bundle x;
  iv_term : len (mi_terminals s) <= len (mi_terminals s0) + count is_term x;
  iv_out : len (outs_known s cid) <= len (outs_known s0 cid) + count is_out x;
  iv_witness : forall bid, len (or_empty (mget bid (mi_bundle_witness s))) <=
                 len (or_empty (mget bid (mi_bundle_witness s0))) + count (is_witness_of bid) x;
  iv_secret : forall sec, len (or_empty (mget sec (mi_terminals s))) <=
                 len (or_empty (mget sec (mi_terminals s0))) + count (is_term_of sec) x;
  iv_seal : forall out, len (or_empty (mget out (outs_known s cid))) <=
                 len (or_empty (mget out (outs_known s0 cid))) + count (is_out_at out) x;
  iv_from : forall opid bid, mget opid (mi_op_bundle s) = Some bid -> mget opid (mi_op_bundle s0) = Some bid \/ In (FOp opid bid) x;
  iv_from' : forall bid id, mget bid (mi_bundle_contract s) = Some id -> mget bid (mi_bundle_contract s0) = Some id \/ id = cid
}.

Definition bad (e : IndexError) : Prop := index_refuses H s0 c e.
Definition boom : Prop := seal_without_output c.

Ltac cnt := rewrite ?count_app, ?count_cons, ?count_nil; cbn [is_op is_bundle is_term is_out is_witness_of is_term_of is_out_at].
Ltac cnt_in Hx := rewrite ?count_app, ?count_cons, ?count_nil in Hx; cbn [is_op is_bundle is_term is_out is_witness_of is_term_of is_out_at] in Hx.

Lemma outs_bc s m : outs_known (set_bundle_contract s m) cid = outs_known s cid.
Proof. reflexivity. Qed.
Lemma outs_bw s m : outs_known (set_bundle_witness s m) cid = outs_known s cid.
Proof. reflexivity. Qed.
Lemma outs_op s m : outs_known (set_op_bundle s m) cid = outs_known s cid.
Proof. reflexivity. Qed.
Lemma outs_te s m : outs_known (set_terminals s m) cid = outs_known s cid.
Proof. reflexivity. Qed.


(** What the whole list has room for, a part has. *)
Lemma count_within {X} (f : X -> bool) x t : within x t -> count f x <= count f t.
Proof. intros (y & ->). rewrite count_app. lia. Qed.

Lemma register_bundle_runs x b w : let bid := bundle_id H b in
  within (x ++ [FBundle bid cid; FWitness bid w]) T ->
  runs (inv x) (inv (x ++ [FBundle bid cid; FWitness bid w])) bad boom (register_bundle bid w cid).
Proof.
  intros bid Hw. unfold register_bundle. apply runs_get. intros s I.
  assert (W : forall f, count f (x ++ [FBundle bid cid; FWitness bid w]) <= count f T) by (intros f; apply count_within, Hw).
  assert (Hin : In (FBundle bid cid) T).
  { eapply within_In; [exact Hw|]. apply in_app_iff. right. left. reflexivity. }
  assert (C : forall alt, mget bid (mi_bundle_contract s) = Some alt -> alt <> cid -> bad (DistinctBundleContract bid alt cid)).
  { intros alt E Ne. split; [reflexivity|]. split; [exact Ne|]. split; [|apply facts_In in Hin; apply Hin].
    destruct (iv_from' _ _ I _ _ E) as [E'|E']; [exact E'|congruence]. }
  assert (G : match (push_witness bid w ;;! (do! s <- get ;;
      match cinsert U24MAX bid cid (mi_bundle_contract s) with
      | Some m => put (set_bundle_contract s m) ;;! ret (negb (mhas bid (mi_bundle_contract s)))
      | None => fail IndexFull end)) s with
    | (s', Ok _) => inv (x ++ [FBundle bid cid; FWitness bid w]) s' | (_, Err e) => bad e | (_, Panic) => boom end).
  { unfold push_witness, bind, get, put, ret, fail, cinsert, cpush.
    destruct (len (mi_bundle_witness s) <? U24MAX) eqn:E1.
    2:{ apply N.ltb_ge in E1. hnf. intros R. pose proof (ir_bundle' _ _ _ R) as R'. pose proof (iv_bundle' _ _ I) as I'.
        specialize (W is_bundle). cnt_in W. fold T in R'. lia. }
    change (match mget bid (mi_bundle_witness s) with Some ws => ws | None => [] end) with (or_empty (mget bid (mi_bundle_witness s))).
    destruct (len (or_empty (mget bid (mi_bundle_witness s))) <? U8MAX) eqn:E2.
    2:{ apply N.ltb_ge in E2. hnf. intros R. pose proof (ir_witness _ _ _ R bid) as R'. pose proof (iv_witness _ _ I bid) as I'.
        specialize (W (is_witness_of bid)). cnt_in W. rewrite N.eqb_refl in W. fold T in R'. lia. }
    cbn [mi_bundle_contract set_bundle_witness].
    destruct (len (mi_bundle_contract s) <? U24MAX) eqn:E3.
    2:{ apply N.ltb_ge in E3. hnf. intros R. pose proof (ir_bundle _ _ _ R) as R'. pose proof (iv_bundle _ _ I) as I'.
        specialize (W is_bundle). cnt_in W. fold T in R'. lia. }
    destruct I. constructor; cbn [mi_op_bundle mi_bundle_contract mi_bundle_witness mi_contracts mi_terminals set_bundle_contract set_bundle_witness]; cnt.
    - assumption.
    - lia.
    - pose proof (len_insert_le bid cid (mi_bundle_contract s)). lia.
    - pose proof (len_insert_le bid (sinsert w (or_empty (mget bid (mi_bundle_witness s)))) (mi_bundle_witness s)). lia.
    - lia.
    - rewrite ?outs_bc, ?outs_bw, ?outs_op, ?outs_te. lia.
    - intros b'. cnt. rewrite mget_insert. destruct (keqb b' bid) eqn:Kb.
      + apply keqb_true in Kb as ->. rewrite N.eqb_refl. cbn [or_empty]. pose proof (sinsert_len_le w (or_empty (mget bid (mi_bundle_witness s)))).
        specialize (iv_witness0 bid). lia.
      + specialize (iv_witness0 b'). lia.
    - intros sec. cnt. specialize (iv_secret0 sec). lia.
    - intros out. cnt. rewrite ?outs_bc, ?outs_bw, ?outs_op, ?outs_te. specialize (iv_seal0 out). lia.
    - intros opid bid' E. destruct (iv_from0 _ _ E) as [X|X]; [left; exact X|right; apply in_app_iff; left; exact X].
    - intros b' id E. rewrite mget_insert in E. destruct (keqb b' bid); [apply Some_inj in E; auto|eauto]. }
  unfold bind at 1. destruct (mget bid (mi_bundle_contract s)) as [alt|] eqn:Ec; [|exact G].
  destruct (N.eqb_spec alt cid) as [->|Ne]; [exact G|]. cbn. apply C; auto.
Qed.

Lemma register_operation_runs x opid bid :
  within (x ++ [FOp opid bid]) T ->
  runs (inv x) (inv (x ++ [FOp opid bid])) bad boom (register_operation opid bid).
Proof.
  intros Hw. unfold register_operation. apply runs_get. intros s I.
  assert (W : forall f, count f (x ++ [FOp opid bid]) <= count f T) by (intros f; apply count_within, Hw).
  assert (Hin : In (FOp opid bid) T).
  { eapply within_In; [exact Hw|]. apply in_app_iff. right. left. reflexivity. }
  assert (G : match match cinsert U24MAX opid bid (mi_op_bundle s) with
      | Some m => put (set_op_bundle s m) ;;! ret (negb (mhas opid (mi_op_bundle s)))
      | None => fail IndexFull end s with
    | (s', Ok _) => inv (x ++ [FOp opid bid]) s' | (_, Err e) => bad e | (_, Panic) => boom end).
  { unfold bind, put, ret, fail, cinsert.
    destruct (len (mi_op_bundle s) <? U24MAX) eqn:E1.
    2:{ apply N.ltb_ge in E1. hnf. intros R. pose proof (ir_op _ _ _ R) as R'. pose proof (iv_op _ _ I) as I'.
        specialize (W is_op). cnt_in W. fold T in R'. lia. }
    destruct I. constructor; cbn [mi_op_bundle mi_bundle_contract mi_bundle_witness mi_contracts mi_terminals set_op_bundle]; cnt.
    - assumption.
    - pose proof (len_insert_le opid bid (mi_op_bundle s)). lia.
    - lia.
    - lia.
    - lia.
    - rewrite ?outs_bc, ?outs_bw, ?outs_op, ?outs_te. lia.
    - intros b'. cnt. specialize (iv_witness0 b'). lia.
    - intros sec. cnt. specialize (iv_secret0 sec). lia.
    - intros out. cnt. rewrite ?outs_bc, ?outs_bw, ?outs_op, ?outs_te. specialize (iv_seal0 out). lia.
    - intros o b' E. rewrite mget_insert in E. destruct (keqb o opid) eqn:Ko.
      + apply keqb_true in Ko as ->. apply Some_inj in E as <-. right. apply in_app_iff. right. left. reflexivity.
      + destruct (iv_from0 _ _ E) as [X|X]; [left; exact X|right; apply in_app_iff; left; exact X].
    - assumption. }
  unfold bind at 1. destruct (mget opid (mi_op_bundle s)) as [alt|] eqn:Ec; [|exact G].
  destruct (N.eqb_spec alt bid) as [->|Ne]; [exact G|]. cbn. split; [exact Ne|].
  split; [|apply facts_In in Hin; apply Hin].
  destruct (iv_from _ _ I _ _ Ec) as [X|X]; [left; exact X|right].
  assert (X' : In (FOp opid alt) T) by (eapply within_In; [eapply within_app, Hw|exact X]). apply facts_In in X'. apply X'.
Qed.

Lemma put_out_runs x out oo : within (x ++ [FOut cid out oo]) T ->
  runs (inv x) (inv (x ++ [FOut cid out oo])) bad boom (put_out cid out oo).
Proof.
  intros Hw s I.
  assert (W : forall f, count f (x ++ [FOut cid out oo]) <= count f T) by (intros f; apply count_within, Hw).
  unfold put_out. destruct (mget cid (mi_contracts s)) as [ci|] eqn:Ec; [|destruct (iv_contract _ _ I); exact Ec].
  assert (Eo : outs_known s cid = ci_outs ci) by (unfold outs_known; rewrite Ec; reflexivity).
  assert (G : forall m : omap OutSeal (oset Opout), len m <= len (ci_outs ci) + 1 ->
     (forall o, len (or_empty (mget o m)) <= len (or_empty (mget o (ci_outs ci))) + (if keqb out o then 1 else 0)) ->
     inv (x ++ [FOut cid out oo]) (set_contracts s (minsert cid {| ci_public := ci_public ci; ci_outs := m |} (mi_contracts s)))).
  { intros m Lm Gm. assert (Eo' : outs_known (set_contracts s (minsert cid {| ci_public := ci_public ci; ci_outs := m |} (mi_contracts s))) cid = m).
    { unfold outs_known. cbn [mi_contracts set_contracts]. rewrite mget_insert_eq. reflexivity. }
    destruct I. constructor; rewrite ?Eo'; cbn [mi_op_bundle mi_bundle_contract mi_bundle_witness mi_contracts mi_terminals set_contracts]; cnt.
    - rewrite mget_insert_eq. discriminate.
    - lia.
    - lia.
    - lia.
    - lia.
    - rewrite Eo in iv_out0. lia.
    - intros b'. cnt. specialize (iv_witness0 b'). lia.
    - intros sec. cnt. specialize (iv_secret0 sec). lia.
    - intros o. cnt. specialize (iv_seal0 o). rewrite Eo in iv_seal0. specialize (Gm o). lia.
    - intros opid bid' E. destruct (iv_from0 _ _ E) as [X|X]; [left; exact X|right; apply in_app_iff; left; exact X].
    - assumption. }
  destruct (mget out (ci_outs ci)) as [os|] eqn:Em.
  - unfold cpush. destruct (len os <? U24MAX) eqn:El.
    + apply G; [apply len_insert_le|]. intros o. rewrite mget_insert. destruct (keqb o out) eqn:Ko.
      * apply keqb_true in Ko as ->. rewrite keqb_refl, Em. cbn [or_empty]. apply sinsert_len_le.
      * lia.
    + apply N.ltb_ge in El. hnf. intros R. pose proof (ir_seal _ _ _ R out) as R'. pose proof (iv_seal _ _ I out) as I'.
      rewrite Eo, Em in I'. cbn [or_empty] in I'. specialize (W (is_out_at out)). cnt_in W. rewrite keqb_refl in W. fold T cid in R'. unfold oset, omap in *. lia.
  - unfold cinsert. destruct (_ <? U24MAX) eqn:El.
    + apply G; [apply len_insert_le|]. intros o. rewrite mget_insert. destruct (keqb o out) eqn:Ko.
      * apply keqb_true in Ko as ->. rewrite keqb_refl, Em. cbn [or_empty]. unfold len. simpl. lia.
      * lia.
    + apply N.ltb_ge in El. hnf. intros R. pose proof (ir_out _ _ _ R) as R'. pose proof (iv_out _ _ I) as I'.
      rewrite Eo in I'. specialize (W is_out). cnt_in W. fold T cid in R'. unfold oset, omap in *. lia.
Qed.

Lemma add_terminal_runs x sec oo : within (x ++ [FTerm sec oo]) T ->
  runs (inv x) (inv (x ++ [FTerm sec oo])) bad boom (add_terminal sec oo).
Proof.
  intros Hw s I.
  assert (W : forall f, count f (x ++ [FTerm sec oo]) <= count f T) by (intros f; apply count_within, Hw).
  pose proof (mremove_len_le sec (mi_terminals s)) as Lr.
  assert (G : forall m : omap N (oset Opout), len m <= len (mi_terminals s) + 1 ->
     (forall o, len (or_empty (mget o m)) <= len (or_empty (mget o (mi_terminals s))) + (if sec =? o then 1 else 0)) ->
     inv (x ++ [FTerm sec oo]) (set_terminals s m)).
  { intros m Lm Gm.
    destruct I. constructor; cbn [mi_op_bundle mi_bundle_contract mi_bundle_witness mi_contracts mi_terminals set_terminals]; cnt.
    - assumption.
    - lia.
    - lia.
    - lia.
    - lia.
    - rewrite ?outs_bc, ?outs_bw, ?outs_op, ?outs_te. lia.
    - intros b'. cnt. specialize (iv_witness0 b'). lia.
    - intros o. cnt. specialize (iv_secret0 o). specialize (Gm o). lia.
    - intros o. cnt. rewrite ?outs_bc, ?outs_bw, ?outs_op, ?outs_te. specialize (iv_seal0 o). lia.
    - intros opid bid' E. destruct (iv_from0 _ _ E) as [X|X]; [left; exact X|right; apply in_app_iff; left; exact X].
    - assumption. }
  assert (Gr : forall o, len (or_empty (mget o (mremove sec (mi_terminals s)))) <= len (or_empty (mget o (mi_terminals s)))).
  { intros o. rewrite mget_remove. destruct (keqb o sec); [unfold len; simpl; lia|lia]. }
  unfold add_terminal. destruct (mget sec (mi_terminals s)) as [os|] eqn:Em.
  - unfold cpush. destruct (len os <? U8MAX) eqn:El.
    + unfold cinsert. destruct (_ <? U24MAX).
      * apply G.
        -- pose proof (len_insert_le sec (sinsert oo os) (mremove sec (mi_terminals s))) as L1. unfold oset, omap in *. lia.
        -- intros o. rewrite mget_insert. destruct (keqb o sec) eqn:Ko.
           ++ apply keqb_true in Ko as ->. rewrite N.eqb_refl, Em. cbn [or_empty]. apply sinsert_len_le.
           ++ specialize (Gr o). lia.
      * apply G; [lia|]. intros o. specialize (Gr o). lia.
    + apply N.ltb_ge in El. hnf. intros R. pose proof (ir_secret _ _ _ R sec) as R'. pose proof (iv_secret _ _ I sec) as I'.
      rewrite Em in I'. cbn [or_empty] in I'. specialize (W (is_term_of sec)). cnt_in W. rewrite N.eqb_refl in W. fold T in R'. lia.
  - unfold cinsert. destruct (_ <? U24MAX) eqn:El.
    + apply G.
      * pose proof (len_insert_le sec [oo] (mremove sec (mi_terminals s))) as L1. unfold oset, omap in *. lia.
      * intros o. rewrite mget_insert. destruct (keqb o sec) eqn:Ko.
        -- apply keqb_true in Ko as ->. rewrite N.eqb_refl, Em. cbn [or_empty]. unfold len; simpl; lia.
        -- specialize (Gr o). lia.
    + apply N.ltb_ge in El. hnf. intros R. pose proof (ir_term _ _ _ R) as R'. pose proof (iv_term _ _ I) as I'.
      specialize (W is_term). cnt_in W. fold T in R'. unfold oset, omap in *. lia.
Qed.

Lemma index_assignments_runs x opid ty w o ta : brings c w o -> In (ty, ta) (op_assigns o) ->
  let l := ta_list ta in
  within (x ++ (out_facts cid w opid ty l ++ term_facts opid ty l)) T ->
  runs (inv x) (inv (x ++ (out_facts cid w opid ty l ++ term_facts opid ty l))) bad boom (index_assignments cid l opid ty w).
Proof.
  intros Hb Hta l Hw. unfold index_assignments. apply runs_get. intros s I.
  destruct (mhas cid (mi_contracts s)) eqn:Eh.
  2:{ apply mhas_false in Eh. destruct (iv_contract _ _ I). exact Eh. }
  unfold bind at 1. cbn [ret].
  rewrite app_assoc in Hw |- *.
  refine (runs_bind bad boom (inv x) (inv (x ++ out_facts cid w opid ty l)) _ _ _ _ _ s I).
  - unfold out_facts. apply runs_mfor with (t := T) (inv := inv); [|eapply within_app, Hw].
    intros [no a] y Hin Hy. apply enumerate_In in Hin. cbn [fst snd] in Hy |- *.
    assert (Z : forall seal, revealed_seal a = Some seal -> assign_output w seal = None -> boom).
    { intros seal Er Ea. exists w, o, ty, no, a, seal. split; [exact Hb|]. split; [exists ta; auto|]. split; [exact Er|].
      intros out Ho. apply assign_output_spec in Ho. congruence. }
    destruct a; cbn [revealed_seal] in *; try (rewrite app_nil_r; apply runs_ret).
    + destruct (assign_output w seal) as [out|] eqn:Ea; [apply put_out_runs, Hy|]. intros s' _. cbn. eapply Z; [reflexivity|exact Ea].
    + destruct (assign_output w seal) as [out|] eqn:Ea; [apply put_out_runs, Hy|]. intros s' _. cbn. eapply Z; [reflexivity|exact Ea].
  - intros _. unfold extend_terminals, term_facts. apply runs_mfor with (t := T) (inv := inv); [|exact Hw].
    intros [no a] y Hin Hy. cbn [fst snd] in Hy |- *.
    destruct a; cbn [secret_of] in *; try (rewrite app_nil_r; apply runs_ret); apply add_terminal_runs, Hy.
Qed.

Lemma op_runs x opid w o : brings c w o -> within (x ++ op_facts cid opid w o) T ->
  runs (inv x) (inv (x ++ op_facts cid opid w o)) bad boom (index_op_assigns cid opid w o).
Proof.
  intros Hb Hw. unfold index_op_assigns, op_facts. apply runs_mfor with (t := T) (inv := inv); [|exact Hw].
  intros [ty ta] y Hin Hy. apply index_assignments_runs with (o := o); assumption.
Qed.

Lemma bundle_runs x wb b : In wb (c_bundles c) -> In b (anchored_bundles (wb_bundles wb)) ->
  within (x ++ bundle_facts H cid b (wb_id wb)) T ->
  runs (inv x) (inv (x ++ bundle_facts H cid b (wb_id wb))) bad boom (pindex_bundle H cid b (wb_id wb)).
Proof.
  intros Hwb Hb Hw. unfold pindex_bundle, bundle_facts in *. rewrite app_assoc in Hw |- *. eapply runs_bind.
  - apply register_bundle_runs. eapply within_app, Hw.
  - intros _. apply runs_mfor with (t := T) (inv := inv); [|exact Hw].
    intros [opid t] y Hin Hy. cbn [fst snd] in Hy |- *. rewrite app_assoc in Hy |- *. eapply runs_bind.
    + apply register_operation_runs. eapply within_app, Hy.
    + intros _. apply op_runs; [|exact Hy]. eapply brings_transition; eassumption.
Qed.

Lemma index_runs : match pindex_consignment H c s0 with
  | (_, Ok _) => True | (_, Err e) => index_refuses H s0 c e | (_, Panic) => seal_without_output c end.
Proof.
  unfold pindex_consignment. change (contract_id H (c_genesis c)) with cid.
  assert (R : forall s, inv [] s -> match (pindex_genesis H cid (c_genesis c) ;;!
      mfor (pindex_extension H cid) (c_extensions c) ;;!
      mfor (fun wb => mfor (fun b => pindex_bundle H cid b (wb_id wb)) (anchored_bundles (wb_bundles wb))) (c_bundles c)) s with
    | (s', Ok _) => inv T s' | (_, Err e) => bad e | (_, Panic) => boom end).
  { pose proof (within_refl T) as Wt. unfold T at 1, facts in Wt. fold cid in Wt.
    change (runs (inv []) (inv T) bad boom (pindex_genesis H cid (c_genesis c) ;;!
      mfor (pindex_extension H cid) (c_extensions c) ;;!
      mfor (fun wb => mfor (fun b => pindex_bundle H cid b (wb_id wb)) (anchored_bundles (wb_bundles wb))) (c_bundles c))).
    eapply runs_bind with (Q := inv (op_facts cid cid None (c_genesis c))).
    - apply (op_runs [] cid None (c_genesis c)); [constructor|]. cbn [app]. eapply within_app, Wt.
    - intros _. rewrite app_assoc in Wt. eapply runs_bind with (Q := inv (op_facts cid cid None (c_genesis c) ++ flat_map (fun e => op_facts cid (op_id H e) None e) (c_extensions c))).
      + apply runs_mfor with (t := T) (inv := inv); [|eapply within_app, Wt].
        intros e y Hin Hy. apply op_runs; [constructor; exact Hin|exact Hy].
      + intros _. unfold T, facts. fold cid. rewrite app_assoc. apply runs_mfor with (t := T) (inv := inv); [|exact Wt].
        intros wb y Hin Hy. apply runs_mfor with (t := T) (inv := inv); [|exact Hy].
        intros b z Hb Hz. apply bundle_runs; assumption. }
  unfold bind at 1. unfold register_contract. destruct (mhas cid (mi_contracts s0)) eqn:Eh.
  - assert (I : inv [] s0).
    { apply mhas_true in Eh as (ci & E). constructor; try (intros; rewrite ?count_nil; lia); auto. congruence. }
    specialize (R s0 I). destruct (bind _ _ s0) as [s' [a|e|]]; [exact Logic.I|exact R|exact R].
  - apply mhas_false in Eh. unfold cinsert. destruct (len (mi_contracts s0) <? U8MAX) eqn:El.
    + assert (I : inv [] (set_contracts s0 (minsert cid {| ci_public := []; ci_outs := [] |} (mi_contracts s0)))).
      { assert (Eo : outs_known (set_contracts s0 (minsert cid {| ci_public := []; ci_outs := [] |} (mi_contracts s0))) cid = []).
        { unfold outs_known. cbn [mi_contracts set_contracts]. rewrite mget_insert_eq. reflexivity. }
        constructor; rewrite ?Eo; cbn [mi_op_bundle mi_bundle_contract mi_bundle_witness mi_contracts mi_terminals set_contracts];
          try (intros; rewrite ?count_nil; lia); auto.
        - rewrite mget_insert_eq. discriminate.
        - unfold len at 1. simpl. lia.
        - intros out. unfold len at 1. simpl. lia. }
      specialize (R _ I). destruct (bind _ _ _) as [s' [a|e|]]; [exact Logic.I|exact R|exact R].
    + apply N.ltb_ge in El. intros R'. pose proof (ir_contract _ _ _ R' Eh). lia.
Qed.
End Index.
