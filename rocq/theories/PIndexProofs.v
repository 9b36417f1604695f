(** Proofs about the index of the stock *)
From Verif Require Import Base StM Core ContainerModel PIndexModel PIndexSpec.
Local Open Scope N_scope.

(** ** Well-formed indexes *)

Record wf (s : MemIndex) : Prop := {
  wf_op : msorted (mi_op_bundle s);
  wf_bc : msorted (mi_bundle_contract s);
  wf_bw : msorted (mi_bundle_witness s);
  wf_co : msorted (mi_contracts s);
  wf_te : msorted (mi_terminals s);
  wf_wit : forall bid ws, mget bid (mi_bundle_witness s) = Some ws -> ssorted ws /\ ws <> [];
  wf_ci : forall cid ci, mget cid (mi_contracts s) = Some ci ->
            ci_public ci = [] /\ msorted (ci_outs ci) /\
            forall out os, mget out (ci_outs ci) = Some os -> ssorted os /\ os <> [];
  wf_term : forall sec os, mget sec (mi_terminals s) = Some os -> ssorted os /\ os <> [];
  wf_len : len (mi_terminals s) <= U24MAX
}.

Lemma wf_empty : wf mi_empty.
Proof.
  constructor; try (apply msorted_nil); simpl; try discriminate.
Qed.

Lemma sinsert_nonempty {K} `{OrdKey K} (k : K) s : sinsert k s <> [].
Proof. intros E. assert (I : In k (sinsert k s)) by (apply In_sinsert; auto). rewrite E in I; exact I. Qed.

Lemma ssorted_nil {K} `{OrdKey K} : ssorted (@nil K).
Proof. constructor. Qed.

Lemma ssorted_one {K} `{OrdKey K} (k : K) : ssorted [k].
Proof. constructor; constructor. Qed.

Lemma filter_length_le {A} (f : A -> bool) l : (length (filter f l) <= length l)%nat.
Proof. induction l as [|a l IH]; simpl; [lia|]. destruct (f a); simpl; lia. Qed.

Lemma mremove_len {K V} `{OrdKey K} (k : K) (m : omap K V) v :
  mget k m = Some v -> len (mremove k m) < len m.
Proof.
  unfold len. intros E.
  assert (L : (length (mremove k m) < length m)%nat); [|lia].
  revert E. unfold mremove. induction m as [|[k' v'] m IH]; simpl; [discriminate|].
  destruct (keqb k k') eqn:Ek; simpl.
  - intros _. pose proof (filter_length_le (fun p : K * V => negb (keqb k (fst p))) m). lia.
  - intros E. specialize (IH E). lia.
Qed.

Lemma mremove_len_le {K V} `{OrdKey K} (k : K) (m : omap K V) : len (mremove k m) <= len m.
Proof.
  unfold len, mremove.
  pose proof (filter_length_le (fun p : K * V => negb (keqb k (fst p))) m). lia.
Qed.

Lemma len_insert_le {K V} `{OrdKey K} (k : K) (v : V) m : len (minsert k v m) <= len m + 1.
Proof. unfold len. pose proof (length_insert_le k v m). lia. Qed.

Lemma len_insert_max {K V} `{OrdKey K} max (k : K) (v : V) m : len m < max -> len (minsert k v m) <= max.
Proof. pose proof (len_insert_le k v m). lia. Qed.

Lemma minsert_mremove {K V} `{OrdKey K} (k : K) (v : V) m :
  msorted m -> mget k m = Some v -> minsert k v (mremove k m) = m.
Proof.
  intros S E. apply msorted_ext.
  - apply minsert_sorted, mremove_sorted, S.
  - exact S.
  - intros k'. destruct (key_dec k k') as [<-|N].
    + rewrite mget_insert_eq. auto.
    + rewrite mget_insert_ne, mget_remove_ne; auto.
Qed.

(** ** What a computation adds *)

(** [m] adds at most the facts [F], keeps all others except that terminals may go when it
    fails, and when it succeeds states [G]. *)
Definition adds {A} (m : IM A) (F G : Fact -> Prop) : Prop :=
  forall s s' r, m s = (s', r) -> wf s ->
    wf s' /\ (forall f, states s' f -> states s f \/ F f) /\
    (forall f, is_term f = false -> states s f -> states s' f) /\
    (forall a, r = Ok a -> forall f, states s f \/ G f -> states s' f).

Lemma adds_ext {A} (m : IM A) (F G F' G' : Fact -> Prop) :
  (forall f, F f -> F' f) -> (forall f, G' f -> G f) -> adds m F G -> adds m F' G'.
Proof.
  intros HF HG HA s s' r E W. destruct (HA s s' r E W) as (W' & S & K & C).
  split; [exact W'|]. split; [|split; [exact K|]].
  - intros f Hf. destruct (S f Hf); auto.
  - intros a Ea f [Hf|Hf]; apply (C a Ea); auto.
Qed.

Definition none : Fact -> Prop := fun _ => False.
Definition one (f : Fact) : Fact -> Prop := fun g => g = f.
Definition also (F G : Fact -> Prop) : Fact -> Prop := fun f => F f \/ G f.

Lemma stay {A} s (r : result IndexError A) (F G : Fact -> Prop) :
  (forall a, r = Ok a -> forall f, G f -> states s f) -> wf s ->
  wf s /\ (forall f, states s f -> states s f \/ F f) /\
  (forall f, is_term f = false -> states s f -> states s f) /\
  (forall a, r = Ok a -> forall f, states s f \/ G f -> states s f).
Proof.
  intros HG W. split; [exact W|]. split; [|split]; auto.
  intros a Ea f [Hf|Hf]; [exact Hf|eapply HG; eauto].
Qed.

Lemma adds_ret {A} (a : A) : adds (ret a) none none.
Proof. intros s s' r [= <- <-] W. apply stay; [intros a' _ f []|exact W]. Qed.

Lemma adds_fail {A} e F G : adds (@fail _ _ A e) F G.
Proof. intros s s' r [= <- <-] W. apply stay; [discriminate|exact W]. Qed.

Lemma adds_panic {A} F G : adds (@panic _ _ A) F G.
Proof. intros s s' r [= <- <-] W. apply stay; [discriminate|exact W]. Qed.

Lemma adds_bind {A B} (m : IM A) (k : A -> IM B) F F' G G' :
  adds m F G -> (forall a, adds (k a) F' G') -> adds (bind m k) (also F F') (also G G').
Proof.
  intros Hm Hk s s' r. unfold bind. destruct (m s) as [s1 [a|e|]] eqn:E1; intros E W.
  - destruct (Hm _ _ _ E1 W) as (W1 & S1 & K1 & C1).
    destruct (Hk a _ _ _ E W1) as (W2 & S2 & K2 & C2).
    split; [exact W2|]. split; [|split].
    + intros f Hf. unfold also. destruct (S2 f Hf) as [Hf'|]; [destruct (S1 f Hf')|]; auto.
    + auto.
    + intros b Eb f Hf. apply (C2 b Eb).
      destruct Hf as [Hf|[Hf|Hf]]; [left; apply (C1 a eq_refl); auto..|right; exact Hf].
  - injection E as <- <-. destruct (Hm _ _ _ E1 W) as (W1 & S1 & K1 & C1).
    split; [exact W1|]. split; [|split; [exact K1|discriminate]].
    intros f Hf. unfold also. destruct (S1 f Hf); auto.
  - injection E as <- <-. destruct (Hm _ _ _ E1 W) as (W1 & S1 & K1 & C1).
    split; [exact W1|]. split; [|split; [exact K1|discriminate]].
    intros f Hf. unfold also. destruct (S1 f Hf); auto.
Qed.

Definition some_of {A} (l : list A) (F : A -> Fact -> Prop) : Fact -> Prop :=
  fun f => exists x, In x l /\ F x f.

Lemma adds_mfor {A} (g : A -> IM unit) (l : list A) (F G : A -> Fact -> Prop) :
  (forall x, In x l -> adds (g x) (F x) (G x)) -> adds (mfor g l) (some_of l F) (some_of l G).
Proof.
  induction l as [|x l IH]; intros Hg; simpl.
  - eapply adds_ext; [| |apply adds_ret]; [intros f []|]. intros f (y & [] & _).
  - eapply adds_ext; [| |apply adds_bind; [apply Hg; left; reflexivity|]].
    3: { intros _. apply IH. intros y Hy. apply Hg. right; exact Hy. }
    + intros f [Hf|(y & Hy & Hf)]; [exists x|exists y]; simpl; auto.
    + intros f (y & [<-|Hy] & Hf); [left; exact Hf|right; exists y; auto].
Qed.

(** ** The primitives *)

Ltac wf_split W := destruct W as [Wop Wbc Wbw Wco Wte Wwit Wci Wterm Wlen].

Lemma wf_set_contracts s cid ci :
  wf s -> ci_public ci = [] -> msorted (ci_outs ci) ->
  (forall out os, mget out (ci_outs ci) = Some os -> ssorted os /\ os <> []) ->
  wf (set_contracts s (minsert cid ci (mi_contracts s))).
Proof.
  intros W P S O. wf_split W. constructor; simpl; auto; [apply minsert_sorted; auto|].
  intros cid' ci'. destruct (key_dec cid cid') as [<-|Ne].
  - rewrite mget_insert_eq. intros E; apply Some_inj in E; subst ci'. auto.
  - rewrite mget_insert_ne by exact Ne. apply Wci.
Qed.

Lemma adds_register_contract cid :
  adds (register_contract cid) (one (FContract cid)) (one (FContract cid)).
Proof.
  intros s s' r E W. unfold register_contract, cinsert in E.
  destruct (mhas cid (mi_contracts s)) eqn:Eh.
  { injection E as <- <-. apply stay; [|exact W].
    intros a _ f Hf. rewrite Hf. simpl.
    apply mhas_true in Eh. exact Eh. }
  apply mhas_false in Eh.
  destruct (len (mi_contracts s) <? U8MAX) eqn:El; injection E as <- <-.
  2: { apply stay; [discriminate|exact W]. }
  assert (K : forall f, states s f ->
    states (set_contracts s (minsert cid {| ci_public := []; ci_outs := [] |} (mi_contracts s))) f).
  { intros [c|b c|b w|o b|c out oo|sec oo]; simpl; auto.
    - intros (ci & Hc). destruct (key_dec cid c) as [<-|Ne]; [congruence|].
      exists ci. rewrite mget_insert_ne; auto.
    - intros (ci & os & Hc & H1 & H2). destruct (key_dec cid c) as [<-|Ne]; [congruence|].
      exists ci, os. rewrite mget_insert_ne; auto. }
  split; [|split; [|split]].
  - apply wf_set_contracts; simpl; auto; [apply msorted_nil|discriminate].
  - intros [c|b c|b w|o b|c out oo|sec oo]; simpl; auto.
    + destruct (key_dec cid c) as [<-|Ne]; [right; reflexivity|].
      rewrite mget_insert_ne by exact Ne. auto.
    + intros (ci & os & Hc & H1 & H2). destruct (key_dec cid c) as [<-|Ne].
      * rewrite mget_insert_eq in Hc. apply Some_inj in Hc; subst ci. discriminate.
      * rewrite mget_insert_ne in Hc by exact Ne. left. exists ci, os; auto.
  - intros f _. apply K.
  - intros a _ f [Hf|Hf]; [apply K, Hf|]. rewrite Hf. simpl.
    rewrite mget_insert_eq. eauto.
Qed.

Lemma adds_push_witness bid w :
  adds (push_witness bid w) (one (FWitness bid w)) (one (FWitness bid w)).
Proof.
  intros s s' r E W. unfold push_witness, cpush in E.
  destruct (len (mi_bundle_witness s) <? U24MAX).
  2: { injection E as <- <-. apply stay; [discriminate|exact W]. }
  set (ws := match mget bid (mi_bundle_witness s) with Some ws => ws | None => [] end) in *.
  destruct (len ws <? U8MAX); injection E as <- <-.
  2: { apply stay; [discriminate|exact W]. }
  assert (Sws : ssorted ws).
  { unfold ws. destruct (mget bid (mi_bundle_witness s)) eqn:Eg; [|apply ssorted_nil].
    eapply wf_wit; eauto. }
  assert (K : forall f, states s f ->
    states (set_bundle_witness s (minsert bid (sinsert w ws) (mi_bundle_witness s))) f).
  { intros [c|b c|b w'|o b|c out oo|sec oo]; simpl; auto.
    intros (ws' & Hg & Hin). destruct (key_dec bid b) as [<-|Ne].
    - exists (sinsert w ws). rewrite mget_insert_eq. split; [reflexivity|].
      unfold ws. rewrite Hg. apply In_sinsert; auto.
    - exists ws'. rewrite mget_insert_ne; auto. }
  split; [|split; [|split]].
  - wf_split W. constructor; simpl; auto; [apply minsert_sorted; auto|].
    intros b ws'. destruct (key_dec bid b) as [<-|Ne].
    + rewrite mget_insert_eq. intros Es; apply Some_inj in Es; subst ws'.
      split; [apply sinsert_sorted, Sws|apply sinsert_nonempty].
    + rewrite mget_insert_ne by exact Ne. apply Wwit.
  - intros [c|b c|b w'|o b|c out oo|sec oo]; simpl; auto.
    intros (ws' & Hg & Hin). destruct (key_dec bid b) as [<-|Ne].
    + rewrite mget_insert_eq in Hg. apply Some_inj in Hg; subst ws'.
      apply In_sinsert in Hin. destruct Hin as [->|Hin]; [right; reflexivity|].
      left. unfold ws in Hin. destruct (mget bid (mi_bundle_witness s)) as [x|]; [|destruct Hin].
      exists x; auto.
    + rewrite mget_insert_ne in Hg by exact Ne. left; exists ws'; auto.
  - intros f _; apply K.
  - intros a _ f [Hf|Hf]; [apply K, Hf|]. rewrite Hf. simpl.
    exists (sinsert w ws). rewrite mget_insert_eq. split; [reflexivity|]. apply In_sinsert; auto.
Qed.

Lemma adds_bundle_contract bid cid s :
  wf s -> (forall alt, mget bid (mi_bundle_contract s) = Some alt -> alt = cid) ->
  let s' := set_bundle_contract s (minsert bid cid (mi_bundle_contract s)) in
  wf s' /\ (forall f, states s' f <-> states s f \/ f = FBundle bid cid).
Proof.
  intros W Hu s'. split.
  - wf_split W. constructor; simpl; auto. apply minsert_sorted; auto.
  - unfold s'. intros [c|b c|b w'|o b|c out oo|sec oo]; simpl;
      try (split; [auto|intros [Hf|Hf]; [exact Hf|discriminate]]).
    destruct (key_dec bid b) as [<-|Ne].
    + rewrite mget_insert_eq. split.
      * intros [= <-]. auto.
      * intros [Hg|[= <-]]; [|reflexivity]. rewrite (Hu _ Hg). reflexivity.
    + rewrite mget_insert_ne by exact Ne. split; [auto|]. intros [Hf|[= -> ->]]; [exact Hf|congruence].
Qed.

Lemma adds_op_bundle opid bid s :
  wf s -> (forall alt, mget opid (mi_op_bundle s) = Some alt -> alt = bid) ->
  let s' := set_op_bundle s (minsert opid bid (mi_op_bundle s)) in
  wf s' /\ (forall f, states s' f <-> states s f \/ f = FOp opid bid).
Proof.
  intros W Hu s'. split.
  - wf_split W. constructor; simpl; auto. apply minsert_sorted; auto.
  - unfold s'. intros [c|b c|b w'|o b|c out oo|sec oo]; simpl;
      try (split; [auto|intros [Hf|Hf]; [exact Hf|discriminate]]).
    destruct (key_dec opid o) as [<-|Ne].
    + rewrite mget_insert_eq. split.
      * intros [= <-]. auto.
      * intros [Hg|[= <-]]; [|reflexivity]. rewrite (Hu _ Hg). reflexivity.
    + rewrite mget_insert_ne by exact Ne. split; [auto|]. intros [Hf|[= -> ->]]; [exact Hf|congruence].
Qed.

Lemma bundle_contract_push s bid w :
  mi_bundle_contract (fst (push_witness bid w s)) = mi_bundle_contract s.
Proof.
  unfold push_witness. destruct (len _ <? U24MAX); [|reflexivity].
  destruct (cpush _ _ _); reflexivity.
Qed.

Lemma adds_register_bundle bid w cid :
  adds (register_bundle bid w cid) (also (one (FBundle bid cid)) (one (FWitness bid w)))
       (also (one (FBundle bid cid)) (one (FWitness bid w))).
Proof.
  intros s s' r E W. unfold register_bundle, bind, get in E.
  assert (HU : match mget bid (mi_bundle_contract s) with
               | Some alt => (alt =? cid) = true | None => True end \/ (s', r) = (s, r)
               /\ exists alt, r = Err (DistinctBundleContract bid alt cid)).
  { destruct (mget bid (mi_bundle_contract s)) as [alt|] eqn:Eg; [|left; exact I].
    destruct (alt =? cid) eqn:Ea; [left; reflexivity|].
    unfold fail in E. injection E as <- <-. right. split; eauto. }
  destruct HU as [HU|[HE (alt & ->)]].
  2: { injection HE as ->. apply stay; [discriminate|exact W]. }
  assert (HU' : forall alt, mget bid (mi_bundle_contract s) = Some alt -> alt = cid).
  { intros alt Eg. rewrite Eg in HU. apply N.eqb_eq, HU. }
  assert (E' : (match push_witness bid w s with
      | (s', Ok _) =>
          match cinsert U24MAX bid cid (mi_bundle_contract s') with
          | Some m => (set_bundle_contract s' m, Ok (negb (mhas bid (mi_bundle_contract s'))))
          | None => (s', Err IndexFull)
          end
      | (s', Err e) => (s', Err e)
      | (s', Panic) => (s', Panic)
      end) = (s', r)).
  { destruct (mget bid (mi_bundle_contract s)) as [alt|]; [rewrite HU in E|];
      unfold ret, put, fail in E; simpl in E;
      (destruct (push_witness bid w s) as [s1 [[]|e|]]; [|exact E|exact E]);
      (destruct (cinsert _ _ _ _); exact E). }
  clear E HU. pose proof (bundle_contract_push s bid w) as HB.
  destruct (push_witness bid w s) as [s1 [[]|e|]] eqn:Ep; simpl in HB.
  2,3: injection E' as <- <-; destruct (adds_push_witness _ _ _ _ _ Ep W) as (W1 & S1 & K1 & _);
       (split; [exact W1|split; [|split; [exact K1|discriminate]]]);
       intros f Hf; destruct (S1 f Hf); unfold also; auto.
  destruct (adds_push_witness _ _ _ _ _ Ep W) as (W1 & S1 & K1 & C1).
  unfold cinsert in E'. destruct (len (mi_bundle_contract s1) <? U24MAX); injection E' as <- <-.
  2: { split; [exact W1|split; [|split; [exact K1|discriminate]]].
       intros f Hf; destruct (S1 f Hf); unfold also; auto. }
  rewrite <- HB in HU'.
  destruct (adds_bundle_contract bid cid s1 W1 HU') as [W2 S2].
  split; [exact W2|]. split; [|split].
  - intros f Hf. apply S2 in Hf. unfold also, one. destruct Hf as [Hf|Hf]; [|auto].
    destruct (S1 f Hf) as [Hx| ->]; auto.
  - intros f Ht Hf. apply S2. auto.
  - intros a _ f Hf. apply S2. unfold also, one in Hf.
    destruct Hf as [Hf|[Hf|Hf]]; [left; apply (C1 tt); auto|auto|left; apply (C1 tt); [reflexivity|]].
    right; exact Hf.
Qed.

Lemma adds_register_operation opid bid :
  adds (register_operation opid bid) (one (FOp opid bid)) (one (FOp opid bid)).
Proof.
  intros s s' r E W. unfold register_operation, bind, get, ret, put, fail in E.
  assert (E' : exists ok, (ok = true -> forall alt, mget opid (mi_op_bundle s) = Some alt -> alt = bid) /\
     ((s', r) = if ok then
        match cinsert U24MAX opid bid (mi_op_bundle s) with
        | Some m => (set_op_bundle s m, Ok (negb (mhas opid (mi_op_bundle s))))
        | None => (s, Err IndexFull)
        end
     else (s, r)) /\ (ok = false -> exists e, r = Err e)).
  { destruct (mget opid (mi_op_bundle s)) as [alt|] eqn:Eg.
    - destruct (alt =? bid) eqn:Ea.
      + exists true. split; [intros _ alt' [= <-]; apply N.eqb_eq, Ea|]. split; [|discriminate].
        rewrite <- E. destruct (cinsert _ _ _ _); reflexivity.
      + exists false. injection E as <- <-. split; [discriminate|]. split; [reflexivity|eauto].
    - exists true. split; [intros _ alt'; discriminate|]. split; [|discriminate].
      rewrite <- E. destruct (cinsert _ _ _ _); reflexivity. }
  destruct E' as ([] & HU & E' & HE).
  2: { injection E' as ->. destruct (HE eq_refl) as [e ->].
       apply stay; [discriminate|exact W]. }
  unfold cinsert in E'. destruct (len (mi_op_bundle s) <? U24MAX); injection E' as -> ->.
  2: { apply stay; [discriminate|exact W]. }
  destruct (adds_op_bundle opid bid s W (HU eq_refl)) as [W2 S2].
  split; [exact W2|]. split; [|split].
  - intros f Hf. apply S2 in Hf. exact Hf.
  - intros f _ Hf. apply S2. auto.
  - intros a _ f Hf. apply S2. exact Hf.
Qed.

Lemma adds_put_out cid out oo :
  adds (put_out cid out oo) (one (FOut cid out oo))
       (also (one (FOut cid out oo)) (one (FContract cid))).
Proof.
  intros s s' r E W. unfold put_out, cpush, cinsert in E.
  destruct (mget cid (mi_contracts s)) as [ci|] eqn:Ec.
  2: { injection E as <- <-. apply stay; [discriminate|exact W]. }
  assert (HP : forall os, (forall x, In x os <->
                  x = oo \/ exists o, mget out (ci_outs ci) = Some o /\ In x o) ->
     ssorted os -> os <> [] ->
     let s1 := set_contracts s (minsert cid {| ci_public := ci_public ci;
                   ci_outs := minsert out os (ci_outs ci) |} (mi_contracts s)) in
     wf s1 /\ forall f, states s1 f <-> states s f \/ f = FOut cid out oo).
  { intros os Hos Sos Nos. destruct (wf_ci _ W _ _ Ec) as (Hp & Hm & Ho).
    split.
    - apply wf_set_contracts; simpl; auto; [apply minsert_sorted, Hm|].
      intros out' os'. destruct (key_dec out out') as [<-|Ne].
      + rewrite mget_insert_eq. intros Eo; apply Some_inj in Eo; subst os'. auto.
      + rewrite mget_insert_ne by exact Ne. apply Ho.
    - intros [c|b c|b w'|o b|c out' oo'|sec oo']; simpl;
        try (split; [auto|intros [Hf|Hf]; [exact Hf|discriminate]]).
      + destruct (key_dec cid c) as [<-|Ne].
        * rewrite mget_insert_eq. split; [|intros _; eauto]. intros _. left. eauto.
        * rewrite mget_insert_ne by exact Ne. split; [auto|]. intros [Hf|Hf]; [exact Hf|discriminate].
      + destruct (key_dec cid c) as [<-|Ne].
        * rewrite mget_insert_eq. rewrite Ec. split.
          -- intros (ci' & os' & E1 & E2 & Hin). apply Some_inj in E1; subst ci'. simpl in E2.
             destruct (key_dec out out') as [<-|Ne].
             ++ rewrite mget_insert_eq in E2. apply Some_inj in E2; subst os'.
                apply Hos in Hin. destruct Hin as [->|(o & Ho' & Hin)]; [auto|].
                left. exists ci, o. auto.
             ++ rewrite mget_insert_ne in E2 by exact Ne. left. exists ci, os'. auto.
          -- intros [(ci' & os' & E1 & E2 & Hin)|[= -> ->]].
             ++ apply Some_inj in E1; subst ci'.
                exists {| ci_public := ci_public ci; ci_outs := minsert out os (ci_outs ci) |}.
                destruct (key_dec out out') as [<-|Ne].
                ** exists os. split; [reflexivity|]. simpl. rewrite mget_insert_eq.
                   split; [reflexivity|]. apply Hos. right. eauto.
                ** exists os'. split; [reflexivity|]. simpl. rewrite mget_insert_ne by exact Ne. auto.
             ++ eexists. exists os. split; [reflexivity|]. simpl. rewrite mget_insert_eq.
                split; [reflexivity|]. apply Hos. auto.
        * rewrite mget_insert_ne by exact Ne.
          split; [auto|]. intros [Hf|[= -> -> ->]]; [exact Hf|congruence]. }
  assert (Fin : forall os, (forall x, In x os <->
                  x = oo \/ exists o, mget out (ci_outs ci) = Some o /\ In x o) ->
     ssorted os -> os <> [] ->
     let s1 := set_contracts s (minsert cid {| ci_public := ci_public ci;
                   ci_outs := minsert out os (ci_outs ci) |} (mi_contracts s)) in
     (s', r) = (s1, Ok tt) ->
     wf s' /\ (forall f, states s' f -> states s f \/ one (FOut cid out oo) f) /\
    (forall f, is_term f = false -> states s f -> states s' f) /\
    (forall a, r = Ok a -> forall f, states s f \/
        also (one (FOut cid out oo)) (one (FContract cid)) f -> states s' f)).
  { intros os Hos Sos Nos s1 E1. destruct (HP os Hos Sos Nos) as [W1 S1].
    injection E1 as -> ->. split; [exact W1|]. split; [|split].
    - intros f Hf. apply S1 in Hf. exact Hf.
    - intros f _ Hf. apply S1. auto.
    - intros a _ f [Hf|[Hf|Hf]]; apply S1; auto. left. rewrite Hf. simpl. eauto. }
  destruct (mget out (ci_outs ci)) as [os|] eqn:Eo.
  - destruct (len os <? U24MAX).
    + apply (Fin (sinsert oo os)); [| | |symmetry; exact E].
      * intros x. rewrite In_sinsert. split; [intros [|]; [auto|right; exists os; auto]|].
        intros [|(o & Ho0 & Hin)]; [auto|]. apply Some_inj in Ho0; subst o; auto.
      * apply sinsert_sorted. destruct (wf_ci _ W _ _ Ec) as (_ & _ & Ho). apply (Ho _ _ Eo).
      * apply sinsert_nonempty.
    + injection E as <- <-. apply stay; [discriminate|exact W].
  - match type of E with context [if ?c then _ else _] => destruct c end.
    + apply (Fin [oo]); [|apply ssorted_one|discriminate|symmetry; exact E].
      intros x. split; [intros [<-|[]]; auto|]. intros [->|(o & Ho0 & _)]; [left; reflexivity|discriminate].
    + injection E as <- <-. apply stay; [discriminate|exact W].
Qed.

Lemma adds_add_terminal sec oo :
  adds (add_terminal sec oo) (one (FTerm sec oo)) (one (FTerm sec oo)).
Proof.
  intros s s' r E W. unfold add_terminal, cpush, cinsert in E.
  set (rest := mremove sec (mi_terminals s)) in *.
  assert (Lose : s' = set_terminals s rest -> (forall a, r <> Ok a) ->
     wf s' /\ (forall f, states s' f -> states s f \/ one (FTerm sec oo) f) /\
    (forall f, is_term f = false -> states s f -> states s' f) /\
    (forall a, r = Ok a -> forall f, states s f \/ one (FTerm sec oo) f -> states s' f)).
  { intros -> Hr. split; [|split; [|split]].
    - wf_split W. constructor; simpl; auto.
      + apply mremove_sorted; auto.
      + intros sec' os. unfold rest. destruct (key_dec sec sec') as [<-|Ne].
        * rewrite mget_remove_eq; discriminate.
        * rewrite mget_remove_ne by exact Ne. apply Wterm.
      + pose proof (mremove_len_le sec (mi_terminals s)). unfold rest. lia.
    - intros [c|b c|b w'|o b|c out oo'|sec' oo']; simpl; auto.
      intros (os & Hg & Hin). unfold rest in Hg. destruct (key_dec sec sec') as [<-|Ne].
      + rewrite mget_remove_eq in Hg; discriminate.
      + rewrite mget_remove_ne in Hg by exact Ne. left. eauto.
    - intros [c|b c|b w'|o b|c out oo'|sec' oo']; simpl; auto. discriminate.
    - intros a Ea. destruct (Hr a Ea). }
  assert (Add : forall os, (forall x, In x os <->
                  x = oo \/ exists o, mget sec (mi_terminals s) = Some o /\ In x o) ->
     ssorted os -> os <> [] -> len (minsert sec os rest) <= U24MAX ->
     s' = set_terminals s (minsert sec os rest) ->
     wf s' /\ (forall f, states s' f -> states s f \/ one (FTerm sec oo) f) /\
    (forall f, is_term f = false -> states s f -> states s' f) /\
    (forall a, r = Ok a -> forall f, states s f \/ one (FTerm sec oo) f -> states s' f)).
  { intros os Hos Sos Nos Hlen ->.
    assert (S1 : forall f, states (set_terminals s (minsert sec os rest)) f <->
                           states s f \/ f = FTerm sec oo).
    { intros [c|b c|b w'|o b|c out' oo'|sec' oo']; simpl;
        try (split; [auto|intros [Hf|Hf]; [exact Hf|discriminate]]).
      destruct (key_dec sec sec') as [<-|Ne].
      - rewrite mget_insert_eq. split.
        + intros (os' & Eos & Hin). apply Some_inj in Eos; subst os'.
          apply Hos in Hin. destruct Hin as [->|Hin]; auto.
        + intros Hf. exists os. split; [reflexivity|]. apply Hos.
          destruct Hf as [Hf|[= ->]]; auto.
      - rewrite mget_insert_ne by exact Ne. unfold rest. rewrite mget_remove_ne by exact Ne.
        split; [auto|]. intros [Hf|[= -> ->]]; [exact Hf|congruence]. }
    split; [|split; [|split]].
    - wf_split W. constructor; simpl; auto.
      + apply minsert_sorted, mremove_sorted; auto.
      + intros sec' os'. destruct (key_dec sec sec') as [<-|Ne].
        * rewrite mget_insert_eq. intros Eos; apply Some_inj in Eos; subst os'. auto.
        * rewrite mget_insert_ne by exact Ne. unfold rest. rewrite mget_remove_ne by exact Ne.
          apply Wterm.
    - intros f Hf. apply S1 in Hf. exact Hf.
    - intros f _ Hf. apply S1. auto.
    - intros a _ f Hf. apply S1. exact Hf. }
  destruct (mget sec (mi_terminals s)) as [os|] eqn:Eg.
  - destruct (len os <? U8MAX).
    + pose proof (mremove_len _ _ _ Eg) as HL. pose proof (wf_len _ W).
      assert (Hlt : (len rest <? U24MAX) = true) by (apply N.ltb_lt; eapply N.lt_le_trans; [exact HL|exact (wf_len _ W)]).
      rewrite Hlt in E. injection E as E1 E2.
      apply (Add (sinsert oo os)); auto.
      * intros x. rewrite In_sinsert. split; [intros [|]; [auto|right; exists os; auto]|].
        intros [|(o & Ho0 & Hin)]; [auto|]. apply Some_inj in Ho0; subst o; auto.
      * apply sinsert_sorted. apply (wf_term _ W _ _ Eg).
      * apply sinsert_nonempty.
      * apply N.ltb_lt in Hlt. apply len_insert_max. exact Hlt.
    + injection E as E1 E2. apply Lose; [auto|]. intros a. congruence.
  - match type of E with context [if ?c then _ else _] => destruct c eqn:Hlt end;
      injection E as E1 E2.
    + apply (Add [oo]); auto; [|apply ssorted_one|discriminate|].
      * intros x. split; [intros [<-|[]]; auto|]. intros [->|(o & Ho0 & _)]; [left; reflexivity|discriminate].
      * apply N.ltb_lt in Hlt. apply len_insert_max. exact Hlt.
    + apply Lose; [auto|]. intros a. congruence.
Qed.

(** ** Assignments, operations, bundles, consignments *)

Lemma adds_get {A} (k : MemIndex -> IM A) F G :
  (forall s0, adds (k s0) F G) -> adds (bind get k) F G.
Proof. intros Hk s s' r E W. exact (Hk s s s' r E W). Qed.

Lemma adds_extend_terminals l opid ty :
  adds (extend_terminals l opid ty)
    (some_of (enumerate l) (fun p f => exists sec, secret_of (snd p) = Some sec /\
                                        f = FTerm sec (opout opid ty (fst p))))
    (some_of (enumerate l) (fun p f => exists sec, secret_of (snd p) = Some sec /\
                                        f = FTerm sec (opout opid ty (fst p)))).
Proof.
  apply adds_mfor. intros [no a] _. simpl.
  destruct a; simpl; (eapply adds_ext; [| |apply adds_ret || apply adds_add_terminal]);
    try (intros f []; fail);
    try (intros f (sec & [=] & _); fail);
    try (intros f ->; eexists; split; reflexivity);
    try (intros f (sec & Hs & ->); apply Some_inj in Hs; subst; reflexivity).
Qed.

Lemma assign_output_spec w s out : assign_output w s = Some out <-> seal_output w s out.
Proof.
  unfold assign_output, seal_output, try_to_output_seal, to_output_seal.
  destruct s as [sl sm [t|] sv sb]; simpl.
  - assert (E : forall w' : option WitnessId,
      match w' with Some _ => Some {| os_layer := sl; os_method := sm; os_txid := t; os_vout := sv |}
                  | None => Some {| os_layer := sl; os_method := sm; os_txid := t; os_vout := sv |} end
      = Some {| os_layer := sl; os_method := sm; os_txid := t; os_vout := sv |}) by (intros []; reflexivity).
    rewrite E. destruct out as [ol om ot ov]; simpl. split.
    + intros [= -> -> -> ->]. auto.
    + intros (-> & -> & -> & ->). reflexivity.
  - destruct w as [w|]; [|split; [discriminate|tauto]].
    destruct (keqb_spec sl (w_layer w)) as [->|Ne]; destruct out as [ol om ot ov]; simpl.
    + split; [intros [= -> -> -> ->]; auto|]. intros (-> & -> & -> & -> & _). reflexivity.
    + split; [discriminate|]. intros (_ & _ & _ & _ & E). congruence.
Qed.

Lemma adds_index_assignments cid l opid ty w :
  adds (index_assignments cid l opid ty w)
    (fun f => exists no a, nth_error l no = Some a /\
       ((exists s out, revealed_seal a = Some s /\ seal_output w s out /\
                       f = FOut cid out (opout opid ty no)) \/
        (exists sec, secret_of a = Some sec /\ f = FTerm sec (opout opid ty no))))
    (fun f => f = FContract cid \/ exists no a, nth_error l no = Some a /\
       ((exists s out, revealed_seal a = Some s /\ seal_output w s out /\
                       f = FOut cid out (opout opid ty no)) \/
        (exists sec, secret_of a = Some sec /\ f = FTerm sec (opout opid ty no)))).
Proof.
  unfold index_assignments.
  assert (HC : adds (do! s <- get ;;
             (if mhas cid (mi_contracts s) then ret tt else fail (ContractAbsent cid)))
             none (one (FContract cid))).
  { intros s s' r E W. unfold bind, get in E.
    destruct (mhas cid (mi_contracts s)) eqn:Eh; injection E as <- <-.
    - apply stay; [|exact W]. intros _ _ f Hf. rewrite Hf. apply mhas_true in Eh. exact Eh.
    - apply stay; [discriminate|exact W]. }
  set (body := fun p : nat * Assign =>
          match snd p with
          | ConfidentialState seal _ | Revealed seal _ =>
              match assign_output w seal with
              | Some out => put_out cid out (opout opid ty (fst p))
              | None => panic
              end
          | _ => ret tt
          end).
  set (FO := fun (p : nat * Assign) f => exists s out, revealed_seal (snd p) = Some s /\
              seal_output w s out /\ f = FOut cid out (opout opid ty (fst p))).
  assert (HB : adds (mfor body (enumerate l)) (some_of (enumerate l) FO) (some_of (enumerate l) FO)).
  { apply adds_mfor. intros [no a] _. unfold body, FO; simpl.
    assert (HS : forall seal, revealed_seal a = Some seal ->
       adds match assign_output w seal with
            | Some out => put_out cid out (opout opid ty no) | None => panic end
         (fun f => exists s out, revealed_seal a = Some s /\ seal_output w s out /\
                     f = FOut cid out (opout opid ty no))
         (fun f => exists s out, revealed_seal a = Some s /\ seal_output w s out /\
                     f = FOut cid out (opout opid ty no))).
    { intros seal Hr. destruct (assign_output w seal) as [out|] eqn:Eo; [|apply adds_panic].
      eapply adds_ext; [| |apply adds_put_out].
      - intros f ->. exists seal, out. split; [exact Hr|]. split; [|reflexivity].
        apply assign_output_spec, Eo.
      - intros f (s & out' & Hr' & Hs & ->). left. unfold one.
        rewrite Hr in Hr'. apply Some_inj in Hr'; subst s.
        apply assign_output_spec in Hs. rewrite Eo in Hs. apply Some_inj in Hs; subst. reflexivity. }
    destruct a; simpl in *; try (apply HS; reflexivity);
      (eapply adds_ext; [| |apply adds_ret]; [intros f []|intros f (s & out & [=] & _)]). }
  eapply adds_ext with (m := bind (do! s <- get ;;
             (if mhas cid (mi_contracts s) then ret tt else fail (ContractAbsent cid)))
             (fun _ => bind (mfor body (enumerate l)) (fun _ => extend_terminals l opid ty))).
  3: { apply adds_bind; [exact HC|]. intros _. apply adds_bind; [exact HB|].
       intros _. apply adds_extend_terminals. }
  - intros f [[]|[([no a] & Hin & Hf)|([no a] & Hin & Hf)]];
      apply enumerate_In in Hin; exists no, a; (split; [exact Hin|]); [left|right]; exact Hf.
  - intros f [->|(no & a & Hn & Hf)]; [left; reflexivity|].
    apply enumerate_In in Hn. right.
    destruct Hf as [Hf|Hf]; [left|right]; exists (no, a); split; assumption.
Qed.

Lemma adds_op_assigns cid opid w o :
  adds (index_op_assigns cid opid w o) (op_announces cid opid w o)
       (fun f => (f = FContract cid /\ op_assigns o <> []) \/ op_announces cid opid w o f).
Proof.
  eapply adds_ext; [| |apply adds_mfor].
  3: { intros p _. apply adds_index_assignments. }
  - intros f ([ty ta] & Hin & no & a & Hn & Hf). exists ty, no, a.
    split; [exists ta; auto|]. exact Hf.
  - intros f [[-> Hne]|(ty & no & a & (ta & Hin & Hn) & Hf)].
    + destruct (op_assigns o) as [|[ty ta] m]; [congruence|]. exists (ty, ta).
      split; [left; reflexivity|]. left; reflexivity.
    + exists (ty, ta). split; [exact Hin|]. right. exists no, a. auto.
Qed.

(** A contract some known transition of the bundle assigns state in *)
Definition bundle_needs (cid : N) (b : Bundle) (f : Fact) : Prop :=
  f = FContract cid /\ exists opid t, In (opid, t) (b_known b) /\ op_assigns t <> [].

Lemma adds_pindex_bundle H cid b w :
  adds (pindex_bundle H cid b w) (bundle_announces H cid b w)
       (fun f => bundle_needs cid b f \/ bundle_announces H cid b w f).
Proof.
  unfold pindex_bundle. eapply adds_ext; [| |apply adds_bind].
  3: apply adds_register_bundle.
  3: { intros _. apply adds_mfor. intros p _. cbv beta.
       apply adds_bind; [apply adds_register_operation|]. intros _. apply adds_op_assigns. }
  - intros f [[Hf|Hf]|([opid t] & Hin & Hf)]; [left; exact Hf|right; left; exact Hf|].
    right; right. exists opid, t. split; [exact Hin|exact Hf].
  - intros f [(-> & opid & t & Hin & Hne)|[Hf|[Hf|(opid & t & Hin & Hf)]]].
    + right. exists (opid, t). split; [exact Hin|]. right. left. auto.
    + left; left; exact Hf.
    + left; right; exact Hf.
    + right. exists (opid, t). split; [exact Hin|]. destruct Hf as [Hf|Hf]; [left; exact Hf|].
      right; right; exact Hf.
Qed.

Lemma adds_pindex_consignment H c :
  adds (pindex_consignment H c) (consignment_announces H c) (consignment_announces H c).
Proof.
  unfold pindex_consignment, pindex_genesis, contract_id.
  eapply adds_ext; [| |apply adds_bind; [apply adds_register_contract|intros _;
     apply adds_bind; [apply adds_op_assigns|intros _;
     apply adds_bind; [apply adds_mfor; intros e _; apply adds_op_assigns|intros _]]]].
  3: { apply adds_mfor. intros wb _. apply adds_mfor. intros b _. apply adds_pindex_bundle. }
  - intros f [Hf|[Hf|[(e & Hin & Hf)|(wb & Hin & b & Hb & Hf)]]].
    + left; exact Hf.
    + right; left; exact Hf.
    + right; right; left. exists e; auto.
    + right; right; right. exists wb, b; auto.
  - intros f [Hf|[Hf|[(e & Hin & Hf)|(wb & b & Hin & Hb & Hf)]]].
    + left; exact Hf.
    + right; left; right; exact Hf.
    + right; right; left. exists e; auto.
    + right; right; right. exists wb. split; [exact Hin|]. exists b. auto.
Qed.

Lemma adds_call H c : adds (index_call H c) (announces H c)
  (fun f => announces H c f \/ match c with IxBundle cid b _ => bundle_needs cid b f
                              | IxConsignment _ => False end).
Proof.
  destruct c as [c|cid b w]; simpl; (eapply adds_ext; [| |apply adds_pindex_consignment || apply adds_pindex_bundle]);
    try (intros f Hf; exact Hf).
  - intros f [Hf|[]]; exact Hf.
  - intros f [Hf|Hf]; auto.
Qed.

(** ** Histories *)

Lemma index_calls_app H l1 l2 s : index_calls H (l1 ++ l2) s = index_calls H l2 (index_calls H l1 s).
Proof. apply fold_left_app. Qed.

Lemma calls_wf H l s : wf s -> wf (index_calls H l s).
Proof.
  revert s; induction l as [|c l IH]; intros s W; simpl; [exact W|].
  destruct (index_call H c s) as [s' r] eqn:E. simpl. apply IH. apply (adds_call H c _ _ _ E W).
Qed.

Lemma after_wf H l : wf (index_after H l).
Proof. apply calls_wf, wf_empty. Qed.

Lemma calls_sound H l s f : wf s -> states (index_calls H l s) f ->
  states s f \/ exists c, In c l /\ announces H c f.
Proof.
  revert s; induction l as [|c l IH]; intros s W; simpl; [auto|].
  destruct (index_call H c s) as [s' r] eqn:E. simpl. intros Hf.
  destruct (adds_call H c _ _ _ E W) as (W' & S & _).
  destruct (IH s' W' Hf) as [Hf'|(c' & Hin & Ha)]; [|right; exists c'; auto].
  destruct (S f Hf'); [auto|right; exists c; auto].
Qed.

Lemma calls_keep H l s f : wf s -> is_term f = false -> states s f -> states (index_calls H l s) f.
Proof.
  revert s; induction l as [|c l IH]; intros s W Ht Hf; simpl; [exact Hf|].
  destruct (index_call H c s) as [s' r] eqn:E. simpl.
  destruct (adds_call H c _ _ _ E W) as (W' & _ & K & _). apply IH; auto.
Qed.

Lemma calls_ok H l s f : wf s -> all_succeed H s l ->
  states s f \/ (exists c, In c l /\ announces H c f) -> states (index_calls H l s) f.
Proof.
  revert s; induction l as [|c l IH]; intros s W Hok Hf; simpl.
  - destruct Hf as [Hf|(c & [] & _)]; exact Hf.
  - destruct Hok as ([s1 Hs1] & Hok). rewrite Hs1 in *. simpl in *.
    destruct (adds_call H c _ _ _ Hs1 W) as (W' & _ & _ & C).
    apply IH; auto. destruct Hf as [Hf|(c' & [<-|Hin] & Ha)].
    + left. apply (C tt); auto.
    + left. apply (C tt); auto.
    + right. exists c'. auto.
Qed.

Lemma calls_keep_ok H l s f : wf s -> all_succeed H s l -> states s f -> states (index_calls H l s) f.
Proof. intros W Hok Hf. apply calls_ok; auto. Qed.

(** ** Queries *)

Lemma find_In {A} (f : A -> bool) l x : find f l = Some x -> In x l /\ f x = true.
Proof. apply find_some. Qed.

Lemma opouts_by_outputs_spec s cid outpoints r ci :
  wf s -> mget cid (mi_contracts s) = Some ci ->
  (forall o1 o2, In o1 (mkeys (ci_outs ci)) -> In o2 (mkeys (ci_outs ci)) ->
     In (os_outpoint o1) outpoints -> os_outpoint o1 = os_outpoint o2 -> o1 = o2) ->
  opouts_by_outputs s cid outpoints = Ok r ->
  ssorted r /\
  forall oo, In oo r <-> exists out, In (os_outpoint out) outpoints /\ states s (FOut cid out oo).
Proof.
  intros W Ec HU E. unfold opouts_by_outputs in E. rewrite Ec in E. simpl in E.
  destruct (wf_ci _ W _ _ Ec) as (_ & Hm & Ho).
  assert (HG : forall l acc, incl l outpoints -> ssorted acc ->
    rfold (fun opouts o =>
           let! p := ok_or (OutpointUnknown o cid)
                       (find (fun p => keqb (os_outpoint (fst p)) o) (ci_outs ci)) in
           Ok (fold_left (fun acc x => sinsert x acc) (snd p) opouts)) acc l = Ok r ->
    ssorted r /\ forall oo, In oo r <-> In oo acc \/
       exists out, In (os_outpoint out) l /\ states s (FOut cid out oo)).
  { induction l as [|o l IH]; intros acc Hincl Hs; simpl.
    - intros Er; apply Ok_inj in Er; subst r. split; [exact Hs|]. intros oo.
      split; [auto|]. intros [?|(out & [] & _)]; assumption.
    - destruct (find _ (ci_outs ci)) as [[out set]|] eqn:Ef; [|discriminate]. simpl.
      apply find_In in Ef. destruct Ef as [Hin Hk]. simpl in Hk. apply keqb_true in Hk.
      intros Er. apply IH in Er; [|intros x Hx; apply Hincl; right; exact Hx|apply fold_sinsert_sorted, Hs].
      destruct Er as [Sr Hr]. split; [exact Sr|]. intros oo. rewrite Hr, fold_sinsert_In.
      assert (Hout : forall out', os_outpoint out' = o ->
                states s (FOut cid out' oo) <-> out' = out /\ In oo set).
      { intros out' Ho'. simpl. split.
        - intros (ci' & set' & E1 & E2 & Hin'). rewrite Ec in E1. apply Some_inj in E1; subst ci'.
          assert (out' = out).
          { apply HU.
            - apply mget_In in E2. apply (in_map fst) in E2. exact E2.
            - apply (in_map fst) in Hin. exact Hin.
            - rewrite Ho'. apply Hincl. left; reflexivity.
            - congruence. }
          subst out'. split; [reflexivity|]. apply In_mget in Hin; [|exact Hm].
          rewrite E2 in Hin. apply Some_inj in Hin; subst; exact Hin'.
        - intros [-> Hin']. exists ci, set. split; [exact Ec|]. split; [|exact Hin'].
          apply In_mget; assumption. }
      split.
      + intros [[Hx|Hx]|(out' & Hl & Hst)]; [|auto|].
        * right. exists out. split; [left; auto|]. apply Hout; auto.
        * right. exists out'. split; [right; exact Hl|exact Hst].
      + intros [Hx|(out' & [Hl|Hl] & Hst)]; [auto| |right; exists out'; auto].
        left; left. symmetry in Hl. apply Hout in Hst; [tauto|congruence]. }
  destruct (HG outpoints [] (incl_refl _) ssorted_nil E) as [Sr Hr].
  split; [exact Sr|]. intros oo. rewrite Hr. simpl. tauto.
Qed.

(** The query fails exactly for an unknown contract or an outpoint without any output. *)
Lemma opouts_by_outputs_ok s cid outpoints :
  wf s ->
  (exists r, opouts_by_outputs s cid outpoints = Ok r) <->
  states s (FContract cid) /\
  forall o, In o outpoints -> exists out oo, os_outpoint out = o /\ states s (FOut cid out oo).
Proof.
  intros W. unfold opouts_by_outputs.
  destruct (mget cid (mi_contracts s)) as [ci|] eqn:Ec.
  2: { split; [intros (r & [=])|]. intros ((ci & Hci) & _). congruence. }
  cbn [ok_or rbind]. destruct (wf_ci _ W _ _ Ec) as (_ & Hm & Ho).
  assert (HG : forall l acc, (exists r, rfold (fun opouts o =>
           let! p := ok_or (OutpointUnknown o cid)
                       (find (fun p => keqb (os_outpoint (fst p)) o) (ci_outs ci)) in
           Ok (fold_left (fun acc x => sinsert x acc) (snd p) opouts)) acc l = Ok r) <->
     forall o, In o l -> exists out oo, os_outpoint out = o /\ states s (FOut cid out oo)).
  { induction l as [|o l IH]; intros acc; simpl.
    - split; [intros _ o []|]. intros _. eauto.
    - destruct (find _ (ci_outs ci)) as [[out set]|] eqn:Ef; simpl.
      + rewrite IH. apply find_In in Ef. destruct Ef as [Hin Hk]. simpl in Hk. apply keqb_true in Hk.
        apply In_mget in Hin; [|exact Hm].
        split; [|intros Hall o' Ho'; apply Hall; right; exact Ho'].
        intros Hall o' [<-|Ho']; [|apply Hall, Ho'].
        destruct (Ho _ _ Hin) as [_ Hne]. destruct set as [|oo set]; [congruence|].
        exists out, oo. split; [exact Hk|]. exists ci, (oo :: set). simpl. auto.
      + split; [intros (r & [=])|]. intros Hall.
        destruct (Hall o (or_introl eq_refl)) as (out & oo & Hk & ci' & set & E1 & E2 & Hin).
        rewrite Ec in E1. apply Some_inj in E1; subst ci'. apply mget_In in E2.
        apply (find_none _ _ Ef) in E2. simpl in E2. apply keqb_false in E2. congruence. }
  rewrite HG. split; [|tauto]. intros Hall. split; [exists ci; exact Ec|exact Hall].
Qed.

Lemma contracts_assigning_spec s outpoints cid :
  wf s ->
  In cid (contracts_assigning s outpoints) <->
  exists out oo, In (os_outpoint out) outpoints /\ states s (FOut cid out oo).
Proof.
  intros W. unfold contracts_assigning. rewrite in_flat_map. split.
  - intros ([cid' ci] & Hin & Hf). simpl in Hf. apply filter_map_In in Hf.
    destruct Hf as (o & Ho & Hex). destruct (existsb _ _) eqn:Ee; [|discriminate].
    apply Some_inj in Hex; subst cid'. apply existsb_exists in Ee.
    destruct Ee as (out & Hk & Hko). apply keqb_true in Hko.
    apply In_mget in Hin; [|apply W]. destruct (wf_ci _ W _ _ Hin) as (_ & Hm & Hos).
    unfold mkeys in Hk. apply in_map_iff in Hk. destruct Hk as ([out' set] & <- & Hk). simpl in *.
    apply In_mget in Hk; [|exact Hm]. destruct (Hos _ _ Hk) as [_ Hne].
    destruct set as [|oo set]; [congruence|].
    exists out', oo. split; [congruence|]. exists ci, (oo :: set). simpl; auto.
  - intros (out & oo & Ho & ci & set & Hc & Hs & Hin). exists (cid, ci).
    split; [apply mget_In, Hc|]. simpl. apply filter_map_In. exists (os_outpoint out).
    split; [exact Ho|].
    replace (existsb _ _) with true; [reflexivity|]. symmetry. apply existsb_exists.
    exists out. split; [|apply keqb_refl]. apply mget_In in Hs. apply (in_map fst) in Hs. exact Hs.
Qed.

(** Asked for a single outpoint, every contract is listed once. *)
Lemma contracts_assigning_single s o : wf s -> NoDup (contracts_assigning s [o]).
Proof.
  intros W. unfold contracts_assigning. pose proof (msorted_NoDup _ (wf_co _ W)) as ND.
  unfold mkeys in ND. revert ND. generalize (mi_contracts s). intros m.
  induction m as [|[cid ci] m IH]; simpl; intros ND; [constructor|].
  inversion ND as [|x y Hnin ND']; subst.
  assert (Hsub : forall x, In x (flat_map (fun p : N * ContractIndex =>
              filter_map (fun o => if existsb (fun seal => keqb (os_outpoint seal) o)
                                              (mkeys (ci_outs (snd p)))
                                   then Some (fst p) else None) [o]) m) -> In x (map fst m)).
  { intros x Hx. apply in_flat_map in Hx. destruct Hx as ([c i] & Hin & Hf).
    apply filter_map_In in Hf. destruct Hf as (o' & _ & Hex).
    destruct (existsb _ _); [|discriminate]. apply Some_inj in Hex; subst x.
    apply (in_map fst) in Hin. exact Hin. }
  destruct (existsb _ _); simpl; [constructor|]; auto.
Qed.

Lemma opouts_by_terminals_spec s terms oo :
  wf s ->
  In oo (opouts_by_terminals s terms) <-> exists sec, In sec terms /\ states s (FTerm sec oo).
Proof.
  intros W. unfold opouts_by_terminals. rewrite sfrom_In, in_flat_map. split.
  - intros ([sec set] & Hf & Hin). apply filter_In in Hf. destruct Hf as [Hm He].
    apply existsb_exists in He. destruct He as (t & Ht & Ht'). apply N.eqb_eq in Ht'. simpl in Ht'.
    subst t. exists sec. split; [exact Ht|]. exists set. split; [|exact Hin].
    apply In_mget; [apply W|exact Hm].
  - intros (sec & Ht & set & Hm & Hin). exists (sec, set). split; [|exact Hin].
    apply filter_In. split; [apply mget_In, Hm|]. apply existsb_exists. exists sec.
    split; [exact Ht|apply N.eqb_refl].
Qed.

Lemma bundle_info_spec s bid ws cid :
  bundle_info s bid = Ok (ws, cid) <->
  mget bid (mi_bundle_witness s) = Some ws /\ mget bid (mi_bundle_contract s) = Some cid.
Proof.
  unfold bundle_info, ok_or, rbind.
  destruct (mget bid (mi_bundle_witness s)), (mget bid (mi_bundle_contract s));
    split; try discriminate; try (intros [E1 E2]; discriminate).
  - intros E; injection E as -> ->; auto.
  - intros [E1 E2]. apply Some_inj in E1, E2. subst. reflexivity.
Qed.

(** ** Repeating a call *)

(** Where there is room and everything is stated already, a successful computation does
    not change the index. *)
Definition noop {A} (m : IM A) (G : Fact -> Prop) : Prop :=
  forall s, wf s -> has_room s -> (forall f, G f -> states s f) ->
    (exists s0 s1 a, m s0 = (s1, Ok a)) -> exists a, m s = (s, Ok a).

Lemma noop_ret {A} (a : A) G : noop (ret a) G.
Proof. intros s _ _ _ _. exists a. reflexivity. Qed.

Lemma noop_fail {A} e G : noop (@fail _ _ A e) G.
Proof. intros s _ _ _ (s0 & s1 & a & E). discriminate. Qed.

Lemma noop_panic {A} G : noop (@panic _ _ A) G.
Proof. intros s _ _ _ (s0 & s1 & a & E). discriminate. Qed.

Lemma noop_ext {A} (m : IM A) (G G' : Fact -> Prop) : (forall f, G f -> G' f) -> noop m G -> noop m G'.
Proof. intros HG Hm s W R Hf He. apply Hm; auto. Qed.

Lemma noop_bind {A B} (m : IM A) (k : A -> IM B) G G' :
  noop m G -> (forall a, noop (k a) G') -> (forall a b, k a = k b) -> noop (bind m k) (also G G').
Proof.
  intros Hm Hk Hc s W R Hf (s0 & s1 & b & E). unfold bind in E.
  destruct (m s0) as [s2 [a|e|]] eqn:E0; try discriminate.
  destruct (Hm s W R) as [a' Ha']; [intros f HG; apply Hf; left; exact HG|eauto|].
  destruct (Hk a' s W R) as [b' Hb']; [intros f HG; apply Hf; right; exact HG| |].
  - rewrite (Hc a' a). eauto.
  - exists b'. unfold bind. rewrite Ha'. exact Hb'.
Qed.

Lemma noop_mfor {A} (g : A -> IM unit) (l : list A) (G : A -> Fact -> Prop) :
  (forall x, In x l -> noop (g x) (G x)) -> noop (mfor g l) (some_of l G).
Proof.
  induction l as [|x l IH]; intros Hg; simpl; [apply noop_ret|].
  eapply noop_ext; [|apply noop_bind; [apply Hg; left; reflexivity| |reflexivity]].
  2: { intros _. apply IH. intros y Hy. apply Hg. right; exact Hy. }
  intros f [Hf|(y & Hy & Hf)]; [exists x|exists y]; simpl; auto.
Qed.

Ltac room R := destruct R as (Rop & Rbc & Rbw & Rco & Rte & Rwit & Rterm & Rci).

Lemma noop_register_contract cid : noop (register_contract cid) (one (FContract cid)).
Proof.
  intros s W R Hf _. unfold register_contract.
  destruct (Hf _ eq_refl) as [ci Hc].
  replace (mhas cid (mi_contracts s)) with true; [eauto|].
  symmetry; apply mhas_true; eauto.
Qed.

Lemma noop_push_witness bid w : noop (push_witness bid w) (one (FWitness bid w)).
Proof.
  intros s W R Hf _. unfold push_witness, cpush. room R.
  destruct (Hf _ eq_refl) as (ws & Hg & Hin). rewrite Hg.
  apply N.ltb_lt in Rbw. rewrite Rbw. specialize (Rwit _ _ Hg). apply N.ltb_lt in Rwit. rewrite Rwit.
  exists tt. f_equal. rewrite (sinsert_present w ws); [|apply (wf_wit _ W _ _ Hg)|exact Hin].
  rewrite (minsert_same bid ws); [destruct s; reflexivity|apply W|exact Hg].
Qed.

Lemma noop_register_bundle bid w cid :
  noop (register_bundle bid w cid) (also (one (FBundle bid cid)) (one (FWitness bid w))).
Proof.
  intros s W R Hf _. unfold register_bundle, bind, get, ret, put.
  assert (Hb : mget bid (mi_bundle_contract s) = Some cid) by (apply (Hf (FBundle bid cid)); left; reflexivity).
  rewrite Hb, N.eqb_refl.
  destruct (noop_push_witness bid w s W R) as [[] Hp]; [intros f Hw; apply Hf; right; exact Hw| |].
  { exists mi_empty. eexists. exists tt. unfold push_witness. simpl. reflexivity. }
  rewrite Hp. unfold cinsert. room R. apply N.ltb_lt in Rbc. rewrite Rbc.
  eexists. f_equal. rewrite (minsert_same bid cid); [destruct s; reflexivity|apply W|exact Hb].
Qed.

Lemma noop_register_operation opid bid :
  noop (register_operation opid bid) (one (FOp opid bid)).
Proof.
  intros s W R Hf _. unfold register_operation, bind, get, ret, put.
  assert (Hb : mget opid (mi_op_bundle s) = Some bid) by (apply (Hf (FOp opid bid)); reflexivity).
  rewrite Hb, N.eqb_refl. unfold cinsert. room R. apply N.ltb_lt in Rop. rewrite Rop.
  eexists. f_equal. rewrite (minsert_same opid bid); [destruct s; reflexivity|apply W|exact Hb].
Qed.

Lemma noop_put_out cid out oo : noop (put_out cid out oo) (one (FOut cid out oo)).
Proof.
  intros s W R Hf _. unfold put_out, cpush. destruct (Hf _ eq_refl) as (ci & set & Hc & Ho & Hin).
  rewrite Hc, Ho. room R. destruct (Rci _ _ Hc) as [_ Rset]. specialize (Rset _ _ Ho).
  apply N.ltb_lt in Rset. rewrite Rset. exists tt. f_equal.
  destruct (wf_ci _ W _ _ Hc) as (_ & Hm & Hs).
  rewrite (sinsert_present oo set); [|apply (Hs _ _ Ho)|exact Hin].
  rewrite (minsert_same out set); [|exact Hm|exact Ho].
  rewrite (minsert_same cid); [destruct s; reflexivity|apply W|]. rewrite Hc. destruct ci; reflexivity.
Qed.

Lemma noop_add_terminal sec oo : noop (add_terminal sec oo) (one (FTerm sec oo)).
Proof.
  intros s W R Hf _. unfold add_terminal, cpush, cinsert. destruct (Hf _ eq_refl) as (set & Hg & Hin).
  rewrite Hg. room R. specialize (Rterm _ _ Hg). apply N.ltb_lt in Rterm. rewrite Rterm.
  assert (Hlt : (len (mremove sec (mi_terminals s)) <? U24MAX) = true).
  { apply N.ltb_lt. pose proof (mremove_len_le sec (mi_terminals s)). lia. }
  rewrite Hlt. exists tt. f_equal.
  rewrite (sinsert_present oo set); [|apply (wf_term _ W _ _ Hg)|exact Hin].
  rewrite minsert_mremove; [destruct s; reflexivity|apply W|exact Hg].
Qed.

Lemma noop_extend_terminals l opid ty :
  noop (extend_terminals l opid ty)
    (some_of (enumerate l) (fun p f => exists sec, secret_of (snd p) = Some sec /\
                                        f = FTerm sec (opout opid ty (fst p)))).
Proof.
  apply noop_mfor. intros [no a] _. simpl. destruct a; simpl; try apply noop_ret;
    (eapply noop_ext; [|apply noop_add_terminal]); intros f ->; eexists; split; reflexivity.
Qed.

Lemma noop_index_assignments cid l opid ty w :
  noop (index_assignments cid l opid ty w)
    (fun f => f = FContract cid \/ exists no a, nth_error l no = Some a /\
       ((exists s out, revealed_seal a = Some s /\ seal_output w s out /\
                       f = FOut cid out (opout opid ty no)) \/
        (exists sec, secret_of a = Some sec /\ f = FTerm sec (opout opid ty no)))).
Proof.
  unfold index_assignments.
  assert (HC : noop (do! s <- get ;;
             (if mhas cid (mi_contracts s) then ret tt else fail (ContractAbsent cid)))
             (one (FContract cid))).
  { intros s W R Hf _. unfold bind, get. destruct (Hf _ eq_refl) as [ci Hc].
    replace (mhas cid (mi_contracts s)) with true; [exists tt; reflexivity|].
    symmetry; apply mhas_true; eauto. }
  set (body := fun p : nat * Assign =>
          match snd p with
          | ConfidentialState seal _ | Revealed seal _ =>
              match assign_output w seal with
              | Some out => put_out cid out (opout opid ty (fst p))
              | None => panic
              end
          | _ => ret tt
          end).
  set (FO := fun (p : nat * Assign) f => exists s out, revealed_seal (snd p) = Some s /\
              seal_output w s out /\ f = FOut cid out (opout opid ty (fst p))).
  assert (HB : noop (mfor body (enumerate l)) (some_of (enumerate l) FO)).
  { apply noop_mfor. intros [no a] _. unfold body, FO; simpl.
    destruct a; simpl; try apply noop_ret;
      (destruct (assign_output w seal) as [out|] eqn:Eo; [|apply noop_panic]);
      (eapply noop_ext; [|apply noop_put_out]); intros f ->; exists seal, out;
      (split; [reflexivity|]; split; [apply assign_output_spec, Eo|reflexivity]). }
  eapply noop_ext with (m := bind (do! s <- get ;;
             (if mhas cid (mi_contracts s) then ret tt else fail (ContractAbsent cid)))
             (fun _ => bind (mfor body (enumerate l)) (fun _ => extend_terminals l opid ty))).
  2: { apply noop_bind; [exact HC| |reflexivity]. intros _. apply noop_bind; [exact HB| |reflexivity].
       intros _. apply noop_extend_terminals. }
  intros f [Hf|[([no a] & Hin & Hf)|([no a] & Hin & Hf)]]; [left; exact Hf| |];
      apply enumerate_In in Hin; right; exists no, a; (split; [exact Hin|]); [left|right]; exact Hf.
Qed.

Lemma noop_op_assigns cid opid w o :
  noop (index_op_assigns cid opid w o)
       (fun f => (f = FContract cid /\ op_assigns o <> []) \/ op_announces cid opid w o f).
Proof.
  eapply noop_ext; [|apply noop_mfor].
  2: { intros p _. apply noop_index_assignments. }
  intros f ([ty ta] & Hin & [->|(no & a & Hn & Hf)]).
  - left. split; [reflexivity|]. intros E. rewrite E in Hin. exact Hin.
  - right. exists ty, no, a. split; [exists ta; auto|]. exact Hf.
Qed.

Lemma noop_pindex_bundle H cid b w :
  noop (pindex_bundle H cid b w) (fun f => bundle_needs cid b f \/ bundle_announces H cid b w f).
Proof.
  unfold pindex_bundle. eapply noop_ext; [|apply noop_bind].
  2: apply noop_register_bundle.
  2: { intros _. apply noop_mfor. intros p _. cbv beta.
       apply noop_bind; [apply noop_register_operation| |reflexivity]. intros _. apply noop_op_assigns. }
  2: reflexivity.
  intros f [[Hf|Hf]|([opid t] & Hin & [Hf|[[-> Hne]|Hf]])]; simpl in *.
  - right; left; exact Hf.
  - right; right; left; exact Hf.
  - right; right; right. exists opid, t. auto.
  - left. split; [reflexivity|]. exists opid, t; auto.
  - right; right; right. exists opid, t. auto.
Qed.

Lemma noop_call H c :
  noop (index_call H c) (fun f => announces H c f \/ match c with
        | IxBundle cid b _ => bundle_needs cid b f
        | IxConsignment c => f = FContract (op_id H (c_genesis c)) end).
Proof.
  destruct c as [c|cid b w]; simpl.
  2: { eapply noop_ext; [|apply noop_pindex_bundle]. intros f [Hf|Hf]; auto. }
  unfold pindex_consignment, pindex_genesis, contract_id.
  eapply noop_ext; [|apply noop_bind; [apply noop_register_contract|intros _;
     apply noop_bind; [apply noop_op_assigns|intros _;
     apply noop_bind; [apply noop_mfor; intros e _; apply noop_op_assigns|intros _|reflexivity]|reflexivity]|reflexivity]].
  2: { apply noop_mfor. intros wb _. apply noop_mfor. intros b _. apply noop_pindex_bundle. }
  intros f [Hf|[[[Hf _]|Hf]|[(e & Hin & [[Hf _]|Hf])|(wb & Hin & b & Hb & [[Hf _]|Hf])]]];
    try (right; exact Hf).
  - left; right; left; exact Hf.
  - left; right; right; left. exists e; auto.
  - left; right; right; right. exists wb, b; auto.
Qed.

Lemma call_idempotent H c s s' :
  wf s -> index_call H c s = (s', Ok tt) -> has_room s' -> index_call H c s' = (s', Ok tt).
Proof.
  intros W E R. destruct (adds_call H c _ _ _ E W) as (W' & _ & _ & C).
  destruct (noop_call H c s' W' R) as [[] Hn]; [| |exact Hn].
  - intros f Hf. apply (C tt eq_refl). right.
    destruct c as [c|cid b w]; [|exact Hf]. left. destruct Hf as [Hf|Hf]; [exact Hf|]. left; exact Hf.
  - eauto.
Qed.
