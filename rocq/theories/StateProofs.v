(** Proofs about the contract state *)
From Verif Require Import Base StM Core HashExists ContainerModel PIndexModel PIndexSpec PIndexProofs
  StateModel StateSpec.
Local Open Scope N_scope.

Section StateProofs.
Context {OG : OrdKey GlobalOut}.

(** ** One operation in one contract *)

Lemma push_out_spec key st w outs outs' : msorted outs -> push_out key st w outs = Some outs' ->
  msorted outs' /\
  (forall k p, mget k outs' = Some p -> mget k outs = Some p \/ k = key /\ p = (st, w)) /\
  (forall k p, mget k outs = Some p -> mget k outs' = Some p) /\
  (exists p, mget key outs' = Some p).
Proof.
  unfold push_out. intros S E.
  match type of E with (if ?c then _ else _) = _ => destruct c end; [|discriminate].
  apply Some_inj in E; subst outs'.
  destruct (mhas key outs) eqn:Eh.
  - apply mhas_true in Eh. auto.
  - apply mhas_false in Eh. split; [apply minsert_sorted, S|]. split; [|split].
    + intros k p. destruct (key_dec key k) as [<-|Ne].
      * rewrite mget_insert_eq. intros E; apply Some_inj in E. auto.
      * rewrite mget_insert_ne by exact Ne. auto.
    + intros k p Hk. destruct (key_dec key k) as [<-|Ne]; [congruence|].
      rewrite mget_insert_ne; auto.
    + exists (st, w). apply mget_insert_eq.
Qed.

Definition assign_key (opid ty : N) (w : option WitnessId) (l : list (nat * Assign)) (key : OutKey)
  (p : RState * option WitnessId) : Prop :=
  exists no seal st out, In (no, Revealed seal st) l /\ assign_output w seal = Some out /\
    key = (opout opid ty no, out) /\ p = (st, w).

Lemma process_spec outs l opid ty w outs' : msorted outs -> process outs l opid ty w = Ok outs' ->
  msorted outs' /\
  (forall k p, mget k outs' = Some p -> mget k outs = Some p \/ assign_key opid ty w (enumerate l) k p) /\
  (forall k p, mget k outs = Some p -> mget k outs' = Some p) /\
  (forall k p, assign_key opid ty w (enumerate l) k p -> exists p', mget k outs' = Some p').
Proof.
  unfold process. generalize (enumerate l). clear l. intros l. revert outs.
  induction l as [|[no a] l IH]; intros outs S; cbn [rfold].
  - intros E. apply Ok_inj in E; subst outs'. split; [exact S|].
    split; [auto|]. split; [auto|]. intros k p (? & ? & ? & ? & [] & _).
  - cbn [fst snd].
    destruct (to_revealed a) as [[seal st]|] eqn:Ea.
    + assert (Ea' : a = Revealed seal st).
      { destruct a; try discriminate. simpl in Ea. injection Ea as -> ->. reflexivity. }
      subst a. destruct (assign_output w seal) as [out|] eqn:Eo; cbn [expect rbind]; [|discriminate].
      destruct (push_out (opout opid ty no, out) st w outs) as [outs1|] eqn:Ep;
        cbn [expect rbind]; [|discriminate].
      intros E. destruct (push_out_spec _ _ _ _ _ S Ep) as (S1 & F1 & K1 & C1).
      destruct (IH _ S1 E) as (S2 & F2 & K2 & C2).
      split; [exact S2|]. split; [|split].
      * intros k p Hk. destruct (F2 k p Hk) as [Hk1|(n & s2 & st2 & o2 & Hin & H2 & H3 & H4)].
        -- destruct (F1 k p Hk1) as [Hx|[-> ->]]; [auto|]. right.
           exists no, seal, st, out. simpl; auto.
        -- right. exists n, s2, st2, o2. simpl; auto.
      * auto.
      * intros k p (n & s2 & st2 & o2 & Hin & H2 & H3 & H4).
        destruct Hin as [Hin|Hin].
        -- injection Hin as <- <- <-. rewrite Eo in H2. apply Some_inj in H2; subst o2.
           destruct C1 as [p1 C1]. subst k. exists p1. apply K2, C1.
        -- apply (C2 k p). exists n, s2, st2, o2; auto.
    + intros E. destruct (IH _ S E) as (S2 & F2 & K2 & C2).
      split; [exact S2|]. split; [|split; [exact K2|]].
      * intros k p Hk. destruct (F2 k p Hk) as [Hk1|(n & s2 & st2 & o2 & Hin & H2 & H3 & H4)]; [auto|].
        right. exists n, s2, st2, o2. simpl; auto.
      * intros k p (n & s2 & st2 & o2 & [Hin|Hin] & H2 & H3 & H4).
        -- injection Hin as -> ->. discriminate.
        -- apply (C2 k p). exists n, s2, st2, o2; auto.
Qed.

Lemma cs_outs_set k k' cs o : cs_outs k (cs_set_outs k' cs o) = if kind_eqb k k' then o else cs_outs k cs.
Proof. destruct k, k'; reflexivity. Qed.

Lemma add_assignments_spec cs w opid (a : Assignments) cs' :
  (forall k, msorted (cs_outs k cs)) -> add_assignments cs w opid a = Ok cs' ->
  (forall k, msorted (cs_outs k cs')) /\ cs_global cs' = cs_global cs /\
  (cs_schema cs' = cs_schema cs /\ cs_contract cs' = cs_contract cs) /\
  (forall k key p, mget key (cs_outs k cs') = Some p -> mget key (cs_outs k cs) = Some p \/
     exists ty ta, In (ty, ta) a /\ ta_kind ta = k /\ assign_key opid ty w (enumerate (ta_list ta)) key p) /\
  (forall k key p, mget key (cs_outs k cs) = Some p -> mget key (cs_outs k cs') = Some p) /\
  (forall k key p ty ta, In (ty, ta) a -> ta_kind ta = k ->
     assign_key opid ty w (enumerate (ta_list ta)) key p ->
     exists p', mget key (cs_outs k cs') = Some p').
Proof.
  unfold add_assignments. revert cs. induction a as [|[ty ta] a IH]; intros cs S; cbn [rfold].
  - intros E. apply Ok_inj in E; subst cs'. split; [exact S|]. split; [reflexivity|]. split; [auto|].
    split; [auto|]. split; [auto|]. intros k key p ty ta [].
  - cbn [fst snd].
    destruct (process (cs_outs (ta_kind ta) cs) (ta_list ta) opid ty w) as [outs|e|] eqn:Ep;
      cbn [rbind]; [|discriminate|discriminate].
    intros E. destruct (process_spec _ _ _ _ _ _ (S _) Ep) as (S1 & F1 & K1 & C1).
    destruct (IH (cs_set_outs (ta_kind ta) cs outs)) as (S2 & G2 & I2 & F2 & K2 & C2).
    + intros k. rewrite cs_outs_set. destruct (kind_eqb k (ta_kind ta)); auto.
    + exact E.
    + split; [exact S2|]. split; [rewrite G2; reflexivity|]. split; [exact I2|]. split; [|split].
      * intros k key p Hk. destruct (F2 k key p Hk) as [Hk1|(ty1 & ta1 & H1 & H2 & H3)].
        -- rewrite cs_outs_set in Hk1. destruct (kind_eqb k (ta_kind ta)) eqn:Ek; [|auto].
           apply kind_eqb_eq in Ek. subst k. destruct (F1 _ _ Hk1) as [Hx|Hx]; [auto|].
           right. exists ty, ta. simpl; auto.
        -- right. exists ty1, ta1. simpl; auto.
      * intros k key p Hk. apply K2. rewrite cs_outs_set.
        destruct (kind_eqb k (ta_kind ta)) eqn:Ek; [|exact Hk].
        apply kind_eqb_eq in Ek. subst k. apply K1, Hk.
      * intros k key p ty1 ta1 [Hin|Hin] Hk Ha.
        -- injection Hin as <- <-. destruct (C1 _ _ Ha) as [p' Hp'].
           exists p'. apply K2. rewrite cs_outs_set, <- Hk, kind_eqb_refl. exact Hp'.
        -- eapply C2; eauto.
Qed.

Definition global_key (opid : N) (ow : OpWitness) (nonce : N) (l : list (nat * N)) (go : GlobalOut) (d : N) : Prop :=
  exists no, In (no, d) l /\
    go = {| go_op := opid; go_nonce := nonce; go_index := N.of_nat no; go_witness := ow |}.

Lemma known_spec known opid ow nonce l known' : msorted known ->
  rfold (fun known (q : nat * N) =>
           @expect StateError _ (cinsert U32MAX {| go_op := opid; go_nonce := nonce;
                                   go_index := N.of_nat (fst q); go_witness := ow |} (snd q) known))
        known l = Ok known' ->
  msorted known' /\
  (forall go d, mget go known' = Some d -> mget go known = Some d \/ global_key opid ow nonce l go d) /\
  (forall go d, mget go known = Some d -> exists d', mget go known' = Some d') /\
  (forall go d, global_key opid ow nonce l go d -> exists d', mget go known' = Some d').
Proof.
  revert known. induction l as [|[no d0] l IH]; intros known S; cbn [rfold].
  - intros E. apply Ok_inj in E; subst known'. split; [exact S|]. split; [auto|]. split; [eauto|].
    intros go d (no & [] & _).
  - unfold cinsert at 1. cbn [fst snd].
    match goal with |- context [if ?c then _ else _] => destruct c end; cbn [expect rbind]; [|discriminate].
    intros E. set (go0 := {| go_op := opid; go_nonce := nonce; go_index := N.of_nat no; go_witness := ow |}) in *.
    destruct (IH _ (minsert_sorted go0 d0 known S) E) as (S2 & F2 & K2 & C2).
    assert (K1 : forall go d, mget go known = Some d -> exists d', mget go (minsert go0 d0 known) = Some d').
    { intros go d Hg. destruct (key_dec go0 go) as [<-|Ne]; [rewrite mget_insert_eq|rewrite mget_insert_ne]; eauto. }
    split; [exact S2|]. split; [|split].
    + intros go d Hg. destruct (F2 go d Hg) as [H1|(n & H1 & H2)].
      * destruct (key_dec go0 go) as [<-|Ne].
        -- rewrite mget_insert_eq in H1. apply Some_inj in H1. subst d0. right. exists no. simpl; auto.
        -- rewrite mget_insert_ne in H1; auto.
      * right. exists n. simpl; auto.
    + intros go d Hg. destruct (K1 _ _ Hg) as [d1 H1]. eapply K2; eauto.
    + intros go d (n & [Hin|Hin] & ->).
      * injection Hin as <- <-. apply (K2 go0 d0). apply mget_insert_eq.
      * apply (C2 _ d). exists n; auto.
Qed.

Definition global_sorted (cs : ContractState) : Prop :=
  forall ty g, mget ty (cs_global cs) = Some g -> msorted (mg_known g).

Lemma add_globals_spec cs opid ow o cs' : global_sorted cs -> add_globals cs opid ow o = Ok cs' ->
  global_sorted cs' /\ (forall k, cs_outs k cs' = cs_outs k cs) /\
  (cs_schema cs' = cs_schema cs /\ cs_contract cs' = cs_contract cs) /\
  (forall ty g', mget ty (cs_global cs') = Some g' -> exists g, mget ty (cs_global cs) = Some g /\
     mg_limit g' = mg_limit g /\
     (forall go d, mget go (mg_known g') = Some d -> mget go (mg_known g) = Some d \/
        exists vals, In (ty, vals) (op_globals o) /\ global_key opid ow (op_nonce o) (enumerate vals) go d) /\
     (forall go d, mget go (mg_known g) = Some d -> exists d', mget go (mg_known g') = Some d') /\
     (forall go d vals, In (ty, vals) (op_globals o) ->
        global_key opid ow (op_nonce o) (enumerate vals) go d -> exists d', mget go (mg_known g') = Some d')) /\
  (forall ty g, mget ty (cs_global cs) = Some g -> exists g', mget ty (cs_global cs') = Some g').
Proof.
  unfold add_globals. generalize (op_globals o). intros l.
  revert cs. induction l as [|[ty vals] l IH]; intros cs S; cbn [rfold].
  - intros E. apply Ok_inj in E; subst cs'. split; [exact S|]. split; [reflexivity|]. split; [auto|]. split; [|eauto].
    intros ty g Hg. exists g. split; [exact Hg|]. split; [reflexivity|]. split; [auto|]. split; [eauto|].
    intros go d vals [].
  - cbn [fst snd]. destruct (mget ty (cs_global cs)) as [g|] eqn:Eg; cbn [expect rbind]; [|discriminate].
    match goal with |- context [rfold ?f (mg_known g) ?l'] =>
      destruct (rfold f (mg_known g) l') as [known|e|] eqn:Ek; cbn [rbind]; [|discriminate|discriminate] end.
    rename S into Sk. apply known_spec in Ek; [|eapply Sk; eauto]. destruct Ek as (S1 & F1 & K1 & C1).
    intros E. set (cs1 := cs_set_global cs _) in *.
    assert (Hg1 : forall ty', mget ty' (cs_global cs1) =
       if keqb ty ty' then Some {| mg_known := known; mg_limit := mg_limit g |} else mget ty' (cs_global cs)).
    { intros ty'. unfold cs1. simpl. destruct (key_dec ty ty') as [<-|Ne].
      - rewrite mget_insert_eq, keqb_refl. reflexivity.
      - rewrite mget_insert_ne by exact Ne. rewrite (proj2 (keqb_neq _ _) Ne). reflexivity. }
    destruct (IH cs1) as (S2 & O2 & I2 & F2 & K2).
    + intros ty' g'. rewrite Hg1.
      destruct (keqb ty ty'); [|apply Sk]. intros E'; apply Some_inj in E'; subst g'. exact S1.
    + exact E.
    + split; [exact S2|]. split; [intros k; rewrite O2; destruct k; reflexivity|]. split; [exact I2|]. split.
      * intros ty' g' Hg'. destruct (F2 ty' g' Hg') as (g2 & H2 & L2 & A2 & B2 & D2).
        rewrite Hg1 in H2. destruct (keqb ty ty') eqn:Ety.
        -- apply keqb_true in Ety. subst ty'. apply Some_inj in H2. subst g2. simpl in *.
           exists g. split; [exact Eg|]. split; [exact L2|]. split; [|split].
           ++ intros go d Hd. destruct (A2 go d Hd) as [H1|(v & H1 & H3)].
              ** destruct (F1 go d H1) as [Hx|Hx]; [auto|]. right. exists vals. simpl; auto.
              ** right. exists v. simpl; auto.
           ++ intros go d Hd. destruct (K1 go d Hd) as [d1 H1]. eapply B2; eauto.
           ++ intros go d v [Hin|Hin] Hk.
              ** injection Hin as <-. destruct (C1 go d Hk) as [d1 H1]. eapply B2; eauto.
              ** eapply D2; eauto.
        -- exists g2. split; [exact H2|]. split; [exact L2|]. split; [|split; [exact B2|]].
           ++ intros go d Hd. destruct (A2 go d Hd) as [H1|(v & H1 & H3)]; [auto|]. right; exists v; simpl; auto.
           ++ intros go d v [Hin|Hin] Hk; [|eapply D2; eauto].
              injection Hin as -> _. rewrite keqb_refl in Ety. discriminate.
      * intros ty' g' Hg'. destruct (keqb ty ty') eqn:Ety.
        -- eapply K2. rewrite Hg1, Ety. reflexivity.
        -- eapply K2. rewrite Hg1, Ety. exact Hg'.
Qed.

(** ** Well-formed states *)

Definition csw (cs : ContractState) : Prop :=
  (forall k, msorted (cs_outs k cs)) /\ global_sorted cs.

Definition refs_known (ws : omap WitnessId WitnessOrd) (cs : ContractState) : Prop :=
  (forall k key p w, mget key (cs_outs k cs) = Some p -> snd p = Some w -> exists ord, mget w ws = Some ord) /\
  (forall ty g go d w, mget ty (cs_global cs) = Some g -> mget go (mg_known g) = Some d ->
     op_witness (go_witness go) = Some w -> exists ord, mget w ws = Some ord).

Record swf (s : MemState) : Prop := {
  swf_w : msorted (ms_witnesses s);
  swf_c : msorted (ms_contracts s);
  swf_cs : forall cid cs, mget cid (ms_contracts s) = Some cs -> csw cs;
  swf_refs : forall cid cs, mget cid (ms_contracts s) = Some cs -> refs_known (ms_witnesses s) cs
}.

Lemma swf_empty : swf ms_empty.
Proof. constructor; simpl; try apply msorted_nil; discriminate. Qed.

Lemma refs_more ws ws' cs : (forall w ord, mget w ws = Some ord -> exists ord', mget w ws' = Some ord') ->
  refs_known ws cs -> refs_known ws' cs.
Proof.
  intros Hw [R1 R2]. split.
  - intros k key p w Hk Hp. destruct (R1 _ _ _ _ Hk Hp) as [ord Ho]. eauto.
  - intros ty g go d w H1 H2 H3. destruct (R2 _ _ _ _ _ H1 H2 H3) as [ord Ho]. eauto.
Qed.

(** ** What a computation adds *)

Definition shas (s : MemState) (f : SFact) : Prop :=
  match f with
  | SFContract _ => sstates s f
  | SFLimit cid ty _ => exists limit, sstates s (SFLimit cid ty limit)
  | SFOut cid k a => exists b, same_out b a /\ sstates s (SFOut cid k b)
  | SFGlobal cid ty go _ => exists d, sstates s (SFGlobal cid ty go d)
  end.

Definition overwritable (f : SFact) : bool := match f with SFGlobal _ _ _ _ => true | _ => false end.

Lemma states_has s f : sstates s f -> shas s f.
Proof.
  destruct f as [cid|cid ty l|cid k a|cid ty go d]; simpl; auto.
  - intros Hs. exists l. exact Hs.
  - intros Hs. exists a. split; [split; reflexivity|exact Hs].
  - intros (cs & g & Hs). exists d, cs, g. exact Hs.
Qed.

Definition sadds {A} (m : SM A) (F G : SFact -> Prop) : Prop :=
  forall s s' r, m s = (s', r) -> swf s ->
    swf s' /\ (forall f, sstates s' f -> sstates s f \/ F f) /\
    (forall f, overwritable f = false -> sstates s f -> sstates s' f) /\
    (forall f, shas s f -> shas s' f) /\
    (forall a, r = Ok a -> forall f, G f -> shas s' f).

Lemma sadds_ext {A} (m : SM A) (F G F' G' : SFact -> Prop) :
  (forall f, F f -> F' f) -> (forall f, G' f -> G f) -> sadds m F G -> sadds m F' G'.
Proof.
  intros HF HG HA s s' r E W. destruct (HA s s' r E W) as (W' & S & K & K' & C).
  split; [exact W'|]. split; [|split; [exact K|split; [exact K'|]]].
  - intros f Hf. destruct (S f Hf); auto.
  - intros a Ea f Hf. apply (C a Ea); auto.
Qed.

Definition snone : SFact -> Prop := fun _ => False.
Definition salso (F G : SFact -> Prop) : SFact -> Prop := fun f => F f \/ G f.

Lemma sstay {A} s (r : result StateError A) (F G : SFact -> Prop) :
  (forall a, r = Ok a -> forall f, G f -> shas s f) -> swf s ->
  swf s /\ (forall f, sstates s f -> sstates s f \/ F f) /\
  (forall f, overwritable f = false -> sstates s f -> sstates s f) /\
  (forall f, shas s f -> shas s f) /\
  (forall a, r = Ok a -> forall f, G f -> shas s f).
Proof. intros HG W. split; [exact W|]. split; [|split; [|split]]; auto. Qed.

Lemma sadds_ret {A} (a : A) : sadds (ret a) snone snone.
Proof. intros s s' r [= <- <-] W. apply sstay; [intros a' _ f []|exact W]. Qed.

Lemma sadds_fail {A} e F G : sadds (@fail _ _ A e) F G.
Proof. intros s s' r [= <- <-] W. apply sstay; [discriminate|exact W]. Qed.

Lemma sadds_bind {A B} (m : SM A) (k : A -> SM B) F F' G G' :
  sadds m F G -> (forall a, sadds (k a) F' G') -> sadds (bind m k) (salso F F') (salso G G').
Proof.
  intros Hm Hk s s' r. unfold bind. destruct (m s) as [s1 [a|e|]] eqn:E1; intros E W.
  - destruct (Hm _ _ _ E1 W) as (W1 & S1 & K1 & L1 & C1).
    destruct (Hk a _ _ _ E W1) as (W2 & S2 & K2 & L2 & C2).
    split; [exact W2|]. split; [|split; [|split]].
    + intros f Hf. unfold salso. destruct (S2 f Hf) as [Hf'|]; [destruct (S1 f Hf')|]; auto.
    + auto.
    + auto.
    + intros b Eb f [Hf|Hf]; [apply L2, (C1 a eq_refl), Hf|apply (C2 b Eb), Hf].
  - injection E as <- <-. destruct (Hm _ _ _ E1 W) as (W1 & S1 & K1 & L1 & C1).
    split; [exact W1|]. split; [|split; [exact K1|split; [exact L1|discriminate]]].
    intros f Hf. unfold salso. destruct (S1 f Hf); auto.
  - injection E as <- <-. destruct (Hm _ _ _ E1 W) as (W1 & S1 & K1 & L1 & C1).
    split; [exact W1|]. split; [|split; [exact K1|split; [exact L1|discriminate]]].
    intros f Hf. unfold salso. destruct (S1 f Hf); auto.
Qed.

Definition ssome_of {A} (l : list A) (F : A -> SFact -> Prop) : SFact -> Prop :=
  fun f => exists x, In x l /\ F x f.

Lemma sadds_mfor {A} (g : A -> SM unit) (l : list A) (F G : A -> SFact -> Prop) :
  (forall x, In x l -> sadds (g x) (F x) (G x)) -> sadds (mfor g l) (ssome_of l F) (ssome_of l G).
Proof.
  induction l as [|x l IH]; intros Hg; simpl.
  - eapply sadds_ext; [| |apply sadds_ret]; [intros f []|]. intros f (y & [] & _).
  - eapply sadds_ext; [| |apply sadds_bind; [apply Hg; left; reflexivity|]].
    3: { intros _. apply IH. intros y Hy. apply Hg. right; exact Hy. }
    + intros f [Hf|(y & Hy & Hf)]; [exists x|exists y]; simpl; auto.
    + intros f (y & [<-|Hy] & Hf); [left; exact Hf|right; exists y; auto].
Qed.

(** ** The primitives *)

Definition op_facts (H : Hashes) (cid : N) (ow : OpWitness) (o : Operation) (f : SFact) : Prop :=
  match f with
  | SFOut cid' k a => cid' = cid /\ reveals H o ow k a
  | SFGlobal cid' ty go d => cid' = cid /\ shows H o ow ty go d
  | _ => False
  end.

(** With the global types which must be there *)
Definition op_goals (H : Hashes) (cid : N) (ow : OpWitness) (o : Operation) (f : SFact) : Prop :=
  match f with
  | SFLimit cid' ty _ => cid' = cid /\ exists vals, In (ty, vals) (op_globals o)
  | _ => op_facts H cid ow o f
  end.

Lemma goals_facts H cid ow o f : op_facts H cid ow o f -> op_goals H cid ow o f.
Proof. destruct f; simpl; tauto. Qed.

Lemma assign_key_reveals H o ow k key p :
  (exists ty ta, In (ty, ta) (op_assigns o) /\ ta_kind ta = k /\
     assign_key (op_id H o) ty (op_witness ow) (enumerate (ta_list ta)) key p) <->
  reveals H o ow k (out_assign (key, p)).
Proof.
  split.
  - intros (ty & ta & Hin & Hk & no & seal & st & out & Hno & Ho & -> & ->).
    exists ty, ta, no, seal, st. apply enumerate_In in Hno. apply assign_output_spec in Ho.
    simpl. auto 8.
  - intros (ty & ta & no & seal & st & Hin & Hk & Hno & Ho & E1 & E2 & E3).
    exists ty, ta. split; [exact Hin|]. split; [exact Hk|].
    exists no, seal, st, (oa_seal (out_assign (key, p))).
    split; [apply enumerate_In, Hno|]. split; [apply assign_output_spec, Ho|].
    destruct key as [oo out], p as [st' w]. simpl in *. subst. auto.
Qed.

Lemma add_operation_spec H cs ow o cs' : csw cs -> add_operation H cs ow o = Ok cs' ->
  csw cs' /\ (cs_schema cs' = cs_schema cs /\ cs_contract cs' = cs_contract cs) /\
  (forall k key p, mget key (cs_outs k cs') = Some p -> mget key (cs_outs k cs) = Some p \/
     reveals H o ow k (out_assign (key, p))) /\
  (forall k key p, mget key (cs_outs k cs) = Some p -> mget key (cs_outs k cs') = Some p) /\
  (forall k key p, reveals H o ow k (out_assign (key, p)) -> exists p', mget key (cs_outs k cs') = Some p') /\
  (forall ty g', mget ty (cs_global cs') = Some g' -> exists g, mget ty (cs_global cs) = Some g /\
     mg_limit g' = mg_limit g /\
     (forall go d, mget go (mg_known g') = Some d -> mget go (mg_known g) = Some d \/ shows H o ow ty go d) /\
     (forall go d, mget go (mg_known g) = Some d -> exists d', mget go (mg_known g') = Some d') /\
     (forall go d, shows H o ow ty go d -> exists d', mget go (mg_known g') = Some d')) /\
  (forall ty g, mget ty (cs_global cs) = Some g -> exists g', mget ty (cs_global cs') = Some g').
Proof.
  intros [So Sg] E. unfold add_operation in E.
  destruct (add_globals cs (op_id H o) ow o) as [cs1|e|] eqn:E1; cbn [rbind] in E; [|discriminate|discriminate].
  destruct (add_globals_spec _ _ _ _ _ Sg E1) as (G1 & O1 & I1 & F1 & K1).
  apply add_assignments_spec in E; [|intros k; rewrite O1; apply So].
  destruct E as (S2 & G2 & I2 & F2 & K2 & C2).
  split; [split; [exact S2|unfold global_sorted; rewrite G2; exact G1]|].
  split; [destruct I1, I2; split; congruence|]. split; [|split; [|split; [|split]]].
  - intros k key p Hk. destruct (F2 k key p Hk) as [Hx|Hx]; [rewrite O1 in Hx; auto|].
    right. apply assign_key_reveals, Hx.
  - intros k key p Hk. apply K2. rewrite O1. exact Hk.
  - intros k key p Hr. apply assign_key_reveals in Hr. destruct Hr as (ty & ta & H1 & H2 & H3). eauto.
  - rewrite G2. intros ty g' Hg'. destruct (F1 ty g' Hg') as (g & Hg & L & A & B & C).
    exists g. split; [exact Hg|]. split; [exact L|]. split; [|split; [exact B|]].
    + intros go d Hd. destruct (A go d Hd) as [Hx|(vals & Hv & no & Hno & Eg)]; [auto|].
      right. apply enumerate_In in Hno. exists vals, no. auto.
    + intros go d (vals & no & Hv & Hno & Eg). apply (C go d vals Hv). exists no.
      split; [apply enumerate_In, Hno|exact Eg].
  - rewrite G2. exact K1.
Qed.

Lemma on_contract_adds H cid ow o s s' r :
  on_contract cid (fun cs => add_operation H cs ow o) s = (s', r) -> swf s ->
  (forall w, op_witness ow = Some w -> exists ord, mget w (ms_witnesses s) = Some ord) ->
  ms_witnesses s' = ms_witnesses s /\
  swf s' /\ (forall f, sstates s' f -> sstates s f \/ op_facts H cid ow o f) /\
  (forall f, overwritable f = false -> sstates s f -> sstates s' f) /\
  (forall f, shas s f -> shas s' f) /\
  (forall a, r = Ok a -> forall f, op_goals H cid ow o f -> shas s' f).
Proof.
  intros E W Hw. unfold on_contract in E.
  destruct (mget cid (ms_contracts s)) as [cs|] eqn:Ec.
  2: { injection E as <- <-. split; [reflexivity|]. apply sstay; [discriminate|exact W]. }
  destruct (add_operation H cs ow o) as [cs'|e|] eqn:Ea.
  2,3: injection E as <- <-; (split; [reflexivity|]); apply sstay; [discriminate|exact W].
  injection E as <- <-. split; [reflexivity|].
  destruct (add_operation_spec _ _ _ _ _ (swf_cs _ W _ _ Ec) Ea) as (W1 & I1 & F1 & K1 & C1 & G1 & GK1).
  assert (Hget : forall cid', mget cid' (ms_contracts (set_states s (minsert cid cs' (ms_contracts s)))) =
                   if keqb cid cid' then Some cs' else mget cid' (ms_contracts s)).
  { intros cid'. simpl. destruct (key_dec cid cid') as [<-|Ne].
    - rewrite mget_insert_eq, keqb_refl. reflexivity.
    - rewrite mget_insert_ne by exact Ne. rewrite (proj2 (keqb_neq _ _) Ne). reflexivity. }
  set (s' := set_states s (minsert cid cs' (ms_contracts s))) in *.
  assert (K : forall f, overwritable f = false -> sstates s f -> sstates s' f).
  { intros [c|c ty l|c k a|c ty go d] Ho; simpl; try discriminate.
    - intros (x & Hx). rewrite Hget. destruct (keqb cid c); eauto.
    - intros (x & g & Hx & Hg & Hl). rewrite Hget. destruct (keqb cid c) eqn:Ek.
      + apply keqb_true in Ek. subst c. rewrite Ec in Hx. apply Some_inj in Hx. subst x.
        destruct (GK1 _ _ Hg) as [g' Hg']. destruct (G1 _ _ Hg') as (g2 & Hg2 & L & _).
        exists cs', g'. rewrite Hg in Hg2. apply Some_inj in Hg2. subst g2. split; [reflexivity|]. split; [exact Hg'|congruence].
      + exists x, g. auto.
    - intros (x & Hx & Hg). rewrite Hget. destruct (keqb cid c) eqn:Ek.
      + apply keqb_true in Ek. subst c. rewrite Ec in Hx. apply Some_inj in Hx. subst x. exists cs'. auto.
      + exists x. auto. }
  split; [|split; [|split; [exact K|split]]].
  - destruct W as [Ww Wc Wcs Wr]. constructor.
    + exact Ww.
    + apply minsert_sorted, Wc.
    + intros cid' x. rewrite Hget. destruct (keqb cid cid'); [|apply Wcs].
      intros Ex; apply Some_inj in Ex; subst x. exact W1.
    + intros cid' x. rewrite Hget. destruct (keqb cid cid'); [|apply Wr].
      intros Ex; apply Some_inj in Ex; subst x. destruct (Wr _ _ Ec) as [R1 R2]. simpl.
      split.
      * intros k key p w Hk Hp. destruct (F1 _ _ _ Hk) as [Hx|Hx]; [eapply R1; eauto|].
        destruct Hx as (ty & ta & no & seal & st & _ & _ & _ & _ & _ & _ & Hx). simpl in Hx.
        apply Hw. congruence.
      * intros ty g go d w H1 H2 H3. destruct (G1 _ _ H1) as (g0 & H0 & _ & A & _).
        destruct (A _ _ H2) as [Hx|(vals & no & _ & _ & ->)]; [eapply R2; eauto|]. simpl in H3. auto.
  - intros [c|c ty l|c k a|c ty go d]; simpl.
    + intros (x & Hx). rewrite Hget in Hx. destruct (keqb cid c) eqn:Ek; [|eauto].
      apply keqb_true in Ek. subst c. left; eauto.
    + intros (x & g & Hx & Hg & Hl). rewrite Hget in Hx. destruct (keqb cid c) eqn:Ek; [|left; exists x, g; auto].
      apply keqb_true in Ek. subst c. apply Some_inj in Hx. subst x.
      destruct (G1 _ _ Hg) as (g0 & H0 & L & _). left. exists cs, g0. split; [exact Ec|]. split; [exact H0|congruence].
    + intros (x & Hx & Hg). rewrite Hget in Hx. destruct (keqb cid c) eqn:Ek; [|left; exists x; auto].
      apply keqb_true in Ek. subst c. apply Some_inj in Hx. subst x.
      destruct (F1 _ _ _ Hg) as [Hy|Hy]; [left; exists cs; auto|]. right. split; [reflexivity|].
      destruct a; exact Hy.
    + intros (x & g & Hx & Hg & Hd). rewrite Hget in Hx. destruct (keqb cid c) eqn:Ek; [|left; exists x, g; auto].
      apply keqb_true in Ek. subst c. apply Some_inj in Hx. subst x.
      destruct (G1 _ _ Hg) as (g0 & H0 & _ & A & _). destruct (A _ _ Hd) as [Hy|Hy]; [left; exists cs, g0; auto|].
      right; auto.
  - intros [c|c ty l|c k a|c ty go d].
    + apply (K (SFContract c)); reflexivity.
    + intros (l0 & Hs). exists l0. apply (K (SFLimit c ty l0)); [reflexivity|exact Hs].
    + intros (b & Hb & Hs). exists b. split; [exact Hb|]. apply K; [reflexivity|exact Hs].
    + intros (d0 & x & g & Hx & Hg & Hd). simpl. rewrite Hget. destruct (keqb cid c) eqn:Ek.
      * apply keqb_true in Ek. subst c. rewrite Ec in Hx. apply Some_inj in Hx. subst x.
        destruct (GK1 _ _ Hg) as [g' Hg']. destruct (G1 _ _ Hg') as (g2 & Hg2 & _ & _ & B & _).
        rewrite Hg in Hg2. apply Some_inj in Hg2. subst g2. destruct (B _ _ Hd) as [d' Hd'].
        exists d', cs', g'. auto.
      * exists d0, x, g. auto.
  - assert (HT : forall ty vals, In (ty, vals) (op_globals o) -> exists g, mget ty (cs_global cs') = Some g).
    { intros ty vals Hin. destruct (mget ty (cs_global cs')) eqn:Eg; [eauto|]. exfalso.
      unfold add_operation in Ea.
      destruct (add_globals cs (op_id H o) ow o) as [cs1|e|] eqn:E1; cbn [rbind] in Ea; [|discriminate|discriminate].
      apply add_assignments_spec in Ea.
      2: { intros k0. destruct (add_globals_spec _ _ _ _ _ (proj2 (swf_cs _ W _ _ Ec)) E1) as (_ & O1 & _).
           rewrite O1. apply (swf_cs _ W _ _ Ec). }
      destruct Ea as (_ & G2 & _). rewrite G2 in Eg.
      assert (HK : exists g, mget ty (cs_global cs) = Some g).
      { clear - E1 Hin. revert E1. unfold add_globals. generalize (op_globals o) Hin. intros l. clear Hin.
        revert cs. induction l as [|[ty' v] l IH]; intros cs Hin; [destruct Hin|]. cbn [rfold fst snd].
        destruct (mget ty' (cs_global cs)) as [g|] eqn:Eg'; cbn [expect rbind]; [|discriminate].
        match goal with |- context [rfold ?f (mg_known g) ?l'] =>
          destruct (rfold f (mg_known g) l') as [known|e|]; cbn [rbind]; [|discriminate|discriminate] end.
        intros E. destruct Hin as [Hin|Hin]; [injection Hin as <- _; eauto|].
        specialize (IH _ Hin E). simpl in IH. destruct (key_dec ty' ty) as [<-|Ne]; [eauto|].
        rewrite mget_insert_ne in IH; auto. }
      destruct HK as [g HK].
      destruct (add_globals_spec _ _ _ _ _ (proj2 (swf_cs _ W _ _ Ec)) E1) as (_ & _ & _ & _ & K2).
      destruct (K2 _ _ HK) as [g' Hg']. congruence. }
    intros [] _ [c|c ty l|c k a|c ty go d]; simpl; try tauto.
    + intros [-> (vals & Hin)]. destruct (HT _ _ Hin) as [g Hg]. exists (mg_limit g), cs', g.
      rewrite Hget, keqb_refl. auto.
    + intros [-> Hr]. destruct (C1 k (oa_opout a, oa_seal a) (oa_state a, oa_witness a)) as [p' Hp'].
      { destruct a; exact Hr. }
      exists (out_assign ((oa_opout a, oa_seal a), p')). split; [split; reflexivity|].
      exists cs'. rewrite Hget, keqb_refl. split; [reflexivity|]. destruct p'; exact Hp'.
    + intros [-> Hr]. destruct Hr as (vals & no & Hin & Hr).
      destruct (HT _ _ Hin) as [g Hg]. destruct (G1 _ _ Hg) as (g0 & _ & _ & _ & _ & C).
      destruct (C go d) as [d' Hd']; [exists vals, no; auto|]. exists d', cs', g. rewrite Hget, keqb_refl. auto.
Qed.

Lemma set_witness_ok w ord s s' : set_witness w ord s = (s', Ok tt) ->
  s' = set_witnesses s (minsert w ord (ms_witnesses s)).
Proof.
  unfold set_witness, cinsert.
  match goal with |- context [if ?c then _ else _] => destruct c end; intros E; [|discriminate].
  injection E as <-. reflexivity.
Qed.

Lemma set_witness_err w ord s s' e : set_witness w ord s = (s', Err e) -> s' = s.
Proof.
  unfold set_witness, cinsert.
  match goal with |- context [if ?c then _ else _] => destruct c end; intros E; [discriminate|].
  injection E as <- <-. reflexivity.
Qed.

Lemma set_witness_nopanic w ord s s' : set_witness w ord s <> (s', Panic).
Proof.
  unfold set_witness, cinsert.
  match goal with |- context [if ?c then _ else _] => destruct c end; discriminate.
Qed.

Lemma sstates_witnesses s ws f : sstates (set_witnesses s ws) f <-> sstates s f.
Proof. destruct f; reflexivity. Qed.

Lemma swf_witness s w ord : swf s -> swf (set_witnesses s (minsert w ord (ms_witnesses s))).
Proof.
  intros [Ww Wc Wcs Wr]. constructor; simpl; auto; [apply minsert_sorted, Ww|].
  intros cid cs Hc. eapply refs_more; [|eapply Wr; eauto].
  intros w' o' Hw'. destruct (key_dec w w') as [<-|Ne]; [rewrite mget_insert_eq|rewrite mget_insert_ne]; eauto.
Qed.

Lemma adds_published H cid ow o w ord : op_witness ow = Some w ->
  sadds (set_witness w ord ;;! on_contract cid (fun cs => add_operation H cs ow o))
        (op_facts H cid ow o) (op_goals H cid ow o).
Proof.
  intros Ew s s' r E W. unfold bind in E.
  destruct (set_witness w ord s) as [s1 [[]|e|]] eqn:E1.
  - apply set_witness_ok in E1. subst s1.
    destruct (on_contract_adds _ _ _ _ _ _ _ E (swf_witness _ _ _ W)) as (_ & W' & S & K & L & C).
    { intros w' Hw'. simpl. rewrite Ew in Hw'. apply Some_inj in Hw'. subst w'.
      rewrite mget_insert_eq. eauto. }
    split; [exact W'|]. split; [|split; [|split]].
    + intros f Hf. destruct (S f Hf) as [Hx|Hx]; [|auto]. left. apply sstates_witnesses in Hx. exact Hx.
    + intros f Ho Hf. apply K; [exact Ho|]. apply sstates_witnesses, Hf.
    + intros f Hf. apply L. destruct f; exact Hf.
    + exact C.
  - injection E as <- <-. apply set_witness_err in E1. subst s1. apply sstay; [discriminate|exact W].
  - apply set_witness_nopanic in E1. destruct E1.
Qed.

Definition register_facts (H : Hashes) (schema : SchemaRec) (g : Operation) (f : SFact) : Prop :=
  match f with
  | SFContract cid => cid = op_id H g
  | SFLimit cid ty limit => cid = op_id H g /\ In (ty, limit) (sch_globals schema)
  | _ => op_facts H (op_id H g) OWGenesis g f
  end.

Definition is_limit (f : SFact) : bool := match f with SFLimit _ _ _ => true | _ => false end.

Lemma mfrom_fold_In {K V} `{OrdKey K} (l : list (K * V)) m k v : msorted m ->
  mget k (fold_left (fun m p => minsert (fst p) (snd p) m) l m) = Some v -> In (k, v) l \/ mget k m = Some v.
Proof.
  revert m. induction l as [|[k' v'] l IH]; simpl; intros m S E; [auto|].
  apply IH in E; [|apply minsert_sorted, S]. destruct E as [E|E]; [auto|].
  destruct (key_dec k' k) as [<-|Ne].
  - rewrite mget_insert_eq in E. apply Some_inj in E. subst v'. auto.
  - rewrite mget_insert_ne in E by exact Ne. auto.
Qed.
Lemma mfrom_get_In {K V} `{OrdKey K} (l : list (K * V)) k v : mget k (mfrom l) = Some v -> In (k, v) l.
Proof. intros E. apply mfrom_fold_In in E; [|apply msorted_nil]. destruct E as [E|E]; [exact E|discriminate]. Qed.
Lemma mfrom_sorted {K V} `{OrdKey K} (l : list (K * V)) : msorted (mfrom l).
Proof.
  unfold mfrom. generalize (msorted_nil : msorted (@nil (K * V))). generalize (@nil (K * V)).
  induction l as [|p l IH]; simpl; intros m S; [exact S|]. apply IH, minsert_sorted, S.
Qed.

Lemma adds_register H schema g :
  sadds (st_register H schema g) (register_facts H schema g)
        (fun f => register_facts H schema g f /\ is_limit f = false \/
                  op_goals H (op_id H g) OWGenesis g f).
Proof.
  intros s s' r E W. unfold st_register in E. unfold bind at 1, get in E. unfold contract_id in E.
  set (cid := op_id H g) in *.
  destruct (mhas cid (ms_contracts s)) eqn:Eh.
  - unfold bind, ret in E. unfold add_genesis in E.
    destruct (on_contract_adds _ _ _ _ _ _ _ E W) as (_ & W' & S & K & L & C); [discriminate|].
    split; [exact W'|]. split; [|split; [exact K|split; [exact L|]]].
    + intros f Hf. destruct (S f Hf) as [Hx|Hx]; [auto|]. right. destruct f; simpl in *; auto; tauto.
    + intros a Ea f [[Hf Hl]|Hf]; [|apply (C a Ea), Hf].
      destruct f as [c|c ty l|c k a'|c ty go d]; simpl in Hl; try discriminate.
      * simpl in Hf. subst c. apply L, states_has. apply mhas_true in Eh. exact Eh.
      * apply (C a Ea). exact Hf.
      * apply (C a Ea). exact Hf.
  - apply mhas_false in Eh. unfold cinsert in E.
    destruct (len (ms_contracts s) <? U8MAX) in E.
    2: { unfold bind, fail in E. injection E as <- <-. apply sstay; [discriminate|exact W]. }
    unfold bind, put in E. set (s1 := set_states s (minsert cid (cs_new schema cid) (ms_contracts s))) in *.
    assert (Hget : forall c, mget c (ms_contracts s1) =
                    if keqb cid c then Some (cs_new schema cid) else mget c (ms_contracts s)).
    { intros c. unfold s1. simpl. destruct (key_dec cid c) as [<-|Ne].
      - rewrite mget_insert_eq, keqb_refl. reflexivity.
      - rewrite mget_insert_ne by exact Ne. rewrite (proj2 (keqb_neq _ _) Ne). reflexivity. }
    assert (Hout : forall k key, mget key (cs_outs k (cs_new schema cid)) = None) by (intros []; reflexivity).
    assert (Hgl : forall ty g', mget ty (cs_global (cs_new schema cid)) = Some g' ->
               mg_known g' = [] /\ In (ty, mg_limit g') (sch_globals schema)).
    { intros ty g'. cbn [cs_new cs_global]. intros Eg. apply mfrom_get_In in Eg. apply in_map_iff in Eg.
      destruct Eg as ([ty' l] & Eg & Hin). injection Eg as <- <-. auto. }
    assert (W1 : swf s1).
    { destruct W as [Ww Wc Wcs Wr]. constructor.
      - exact Ww.
      - apply minsert_sorted, Wc.
      - intros c x. rewrite Hget. destruct (keqb cid c); [|apply Wcs].
        intros Ex; apply Some_inj in Ex; subst x. split; [intros []; apply msorted_nil|].
        intros ty g' Hg'. destruct (Hgl _ _ Hg') as [-> _]. apply msorted_nil.
      - intros c x. rewrite Hget. destruct (keqb cid c); [|apply Wr].
        intros Ex; apply Some_inj in Ex; subst x. split.
        + intros k key p w Hk. rewrite Hout in Hk. discriminate.
        + intros ty g' go d w Hg' Hd. destruct (Hgl _ _ Hg') as [E0 _]. rewrite E0 in Hd. discriminate. }
    assert (K1 : forall f, sstates s f -> sstates s1 f).
    { intros [c|c ty l|c k a|c ty go d]; simpl.
      - intros (x & Hx). rewrite Hget. destruct (keqb cid c); eauto.
      - intros (x & g' & Hx & Hg). rewrite Hget. destruct (keqb cid c) eqn:Ek; [|exists x, g'; auto].
        apply keqb_true in Ek. congruence.
      - intros (x & Hx & Hg). rewrite Hget. destruct (keqb cid c) eqn:Ek; [|exists x; auto].
        apply keqb_true in Ek. congruence.
      - intros (x & g' & Hx & Hg). rewrite Hget. destruct (keqb cid c) eqn:Ek; [|exists x, g'; auto].
        apply keqb_true in Ek. congruence. }
    assert (L1 : forall f, shas s f -> shas s1 f).
    { intros [c|c ty l|c k a|c ty go d] Hf.
      - apply (K1 (SFContract c)), Hf.
      - destruct Hf as (l0 & Hs). exists l0. apply K1, Hs.
      - destruct Hf as (b & Hb & Hs). exists b. split; [exact Hb|]. apply K1, Hs.
      - destruct Hf as (d0 & Hs). exists d0. apply K1, Hs. }
    assert (S1 : forall f, sstates s1 f -> sstates s f \/ register_facts H schema g f).
    { intros [c|c ty l|c k a|c ty go d]; simpl; fold cid.
      - intros (x & Hx). rewrite Hget in Hx. destruct (keqb cid c) eqn:Ek; [|eauto].
        apply keqb_true in Ek. auto.
      - intros (x & g' & Hx & Hg & Hl). rewrite Hget in Hx. destruct (keqb cid c) eqn:Ek; [|left; exists x, g'; auto].
        apply keqb_true in Ek. apply Some_inj in Hx. subst x. destruct (Hgl _ _ Hg) as [_ E0]. right. split; [congruence|]. rewrite <- Hl. exact E0.
      - intros (x & Hx & Hg). rewrite Hget in Hx. destruct (keqb cid c) eqn:Ek; [|left; exists x; auto].
        apply Some_inj in Hx. subst x. rewrite Hout in Hg. discriminate.
      - intros (x & g' & Hx & Hg & Hd). rewrite Hget in Hx. destruct (keqb cid c) eqn:Ek; [|left; exists x, g'; auto].
        apply Some_inj in Hx. subst x. destruct (Hgl _ _ Hg) as [E0 _]. rewrite E0 in Hd. discriminate. }
    unfold add_genesis in E.
    destruct (on_contract_adds _ _ _ _ _ _ _ E W1) as (_ & W' & S & K & L & C); [discriminate|].
    split; [exact W'|]. split; [|split; [|split]].
    + intros f Hf. destruct (S f Hf) as [Hx|Hx]; [apply S1, Hx|]. right. destruct f; simpl in *; auto; tauto.
    + intros f Ho Hf. apply K; auto.
    + intros f Hf. apply L, L1, Hf.
    + intros a Ea f [[Hf Hl]|Hf]; [|apply (C a Ea), Hf].
      destruct f as [c|c ty l|c k a'|c ty go d]; simpl in Hl; try discriminate.
      * simpl in Hf. fold cid in Hf. subst c. apply L. simpl. rewrite Hget, keqb_refl. eauto.
      * apply (C a Ea). exact Hf.
      * apply (C a Ea). exact Hf.
Qed.

Lemma adds_lift {A} (x : result StateError A) : sadds (lift x) snone snone.
Proof. intros s s' r [= <- <-] W. apply sstay; [intros a' _ f []|exact W]. Qed.

Lemma adds_resolved H cid ow o w r : op_witness ow = Some w ->
  sadds (do! ord <- resolve r w ;; (set_witness w ord ;;! on_contract cid (fun cs => add_operation H cs ow o)))
        (op_facts H cid ow o) (op_goals H cid ow o).
Proof.
  intros Ew. eapply sadds_ext; [| |apply sadds_bind; [apply adds_lift|intros ord; apply adds_published, Ew]].
  - intros f [[]|Hf]. exact Hf.
  - intros f Hf. right. exact Hf.
Qed.

Lemma sadds_get {A} (k : MemState -> SM A) F G :
  (forall s0, sadds (k s0) F G) -> sadds (bind get k) F G.
Proof. intros Hk s s' r E W. unfold bind, get in E. exact (Hk s _ _ _ E W). Qed.

(** What is there after a successful call *)
Definition sgoals (H : Hashes) (c : StateCall) (f : SFact) : Prop :=
  match f with
  | SFLimit cid ty _ => exists ow o vals, imports H c cid ow o /\ In (ty, vals) (op_globals o)
  | _ => sannounces H c f
  end.

Lemma adds_update_from_bundle H cid b w r :
  sadds (update_from_bundle H cid b w r) (sannounces H (StBundle cid b w r)) (sgoals H (StBundle cid b w r)).
Proof.
  unfold update_from_bundle. apply sadds_get. intros s0.
  eapply sadds_ext; [| |apply sadds_bind; [|intros _; apply sadds_mfor; intros t _; apply adds_resolved; reflexivity]].
  3: { instantiate (1 := snone). instantiate (1 := snone).
       destruct (mhas cid (ms_contracts s0)); [apply sadds_ret|apply sadds_fail]. }
  - intros f [[]|(t & Ht & Hf)].
    destruct f as [c|c ty l|c k a|c ty go d]; simpl in Hf; try (destruct Hf; fail).
    + destruct Hf as [-> Hf]. exists (OWTransition w (op_ty t)), t. simpl; auto.
    + destruct Hf as [-> Hf]. exists (OWTransition w (op_ty t)), t. simpl; auto.
  - intros f Hf. right. destruct f as [c|c ty l|c k a|c ty go d]; simpl in Hf.
    + destruct Hf as (c' & r' & E & _). discriminate.
    + destruct Hf as (ow & o & vals & (-> & Hin & ->) & Hr). exists o. simpl; eauto.
    + destruct Hf as (ow & o & (-> & Hin & ->) & Hr). exists o. simpl; auto.
    + destruct Hf as (ow & o & (-> & Hin & ->) & Hr). exists o. simpl; auto.
Qed.

Lemma spends_spec t opid : spends t opid = true <-> spends_op t opid.
Proof.
  unfold spends, spends_op. rewrite existsb_exists.
  split; intros (i & Hi & E); exists i; (split; [exact Hi|apply N.eqb_eq, E]).
Qed.

Lemma extension_witness_spec c opid w : extension_witness c opid = Some w <-> first_spent c opid w.
Proof.
  unfold extension_witness, first_spent. generalize (c_bundles c). intros l. clear c.
  induction l as [|wb l IH]; cbn [find_map].
  - split; [discriminate|]. intros (b & x & a & E & _). destruct b; discriminate.
  - destruct (existsb (fun t => spends t opid) (wb_known_transitions wb)) eqn:Ex.
    + apply existsb_exists in Ex. destruct Ex as (t & Ht & Hs). apply spends_spec in Hs. split.
      * intros E. apply Some_inj in E. subst w. exists [], wb, l. split; [reflexivity|]. split; [reflexivity|].
        split; [eauto|]. intros wb' t' [].
      * intros (b & x & a & E & Hw & Hx & Hb). destruct b as [|y b].
        -- injection E as <- <-. congruence.
        -- injection E as <- ->. destruct (Hb wb t (or_introl eq_refl) Ht Hs).
    + assert (Hn : forall t, In t (wb_known_transitions wb) -> ~ spends_op t opid).
      { intros t Ht Hs. apply spends_spec in Hs.
        assert (existsb (fun t => spends t opid) (wb_known_transitions wb) = true) by (apply existsb_exists; eauto).
        congruence. }
      rewrite IH. split.
      * intros (b & x & a & E & Hw & Hx & Hb). exists (wb :: b), x, a. split; [simpl; congruence|].
        split; [exact Hw|]. split; [exact Hx|]. intros wb' t [<-|Hin] Ht; [apply Hn, Ht|eapply Hb; eauto].
      * intros (b & x & a & E & Hw & Hx & Hb). destruct b as [|y b].
        -- injection E as <- <-. destruct Hx as (t & Ht & Hs). destruct (Hn t Ht Hs).
        -- injection E as <- ->. exists b, x, a. split; [reflexivity|]. split; [exact Hw|]. split; [exact Hx|].
           intros wb' t Hin. apply Hb. right; exact Hin.
Qed.

Lemma adds_update_from_consignment H c r :
  sadds (update_from_consignment H c r) (sannounces H (StConsignment c r))
        (sgoals H (StConsignment c r)).
Proof.
  unfold update_from_consignment.
  eapply sadds_ext; [| |apply sadds_bind; [apply adds_register|intros _; apply sadds_bind; [|intros _]]].
  3: { apply (sadds_mfor _ _
         (fun wb => ssome_of (wb_known_transitions wb)
            (fun t => op_facts H (contract_id H (c_genesis c)) (OWTransition (wb_id wb) (op_ty t)) t))
         (fun wb => ssome_of (wb_known_transitions wb)
            (fun t => op_goals H (contract_id H (c_genesis c)) (OWTransition (wb_id wb) (op_ty t)) t))).
       intros wb _. apply sadds_mfor. intros t _. apply adds_resolved. reflexivity. }
  3: { apply (sadds_mfor _ _
         (fun e f => exists w, first_spent c (op_id H e) w /\
            op_facts H (contract_id H (c_genesis c)) (OWExtension w (op_ty e)) e f)
         (fun e f => exists w, first_spent c (op_id H e) w /\
            op_goals H (contract_id H (c_genesis c)) (OWExtension w (op_ty e)) e f)).
       intros e _. destruct (extension_witness c (op_id H e)) as [w|] eqn:Ew.
       - pose proof (proj1 (extension_witness_spec _ _ _) Ew) as Fw.
         eapply sadds_ext; [| |apply (adds_resolved H _ (OWExtension w (op_ty e)) e w); reflexivity].
         + intros f Hf. exists w; auto.
         + intros f (w' & Fw' & Hf). apply extension_witness_spec in Fw'.
           rewrite Ew in Fw'. apply Some_inj in Fw'. subst w'. exact Hf.
       - eapply sadds_ext; [| |apply sadds_ret]; [intros f []|].
         intros f (w & Fw & _). apply extension_witness_spec in Fw. congruence. }
  - intros f [Hf|[(wb & Hwb & t & Ht & Hf)|(e & He & w & Fw & Hf)]].
    + destruct f as [x|x ty l|x k a|x ty go d]; simpl in Hf.
      * exists c, r; auto.
      * destruct Hf. exists c, r; auto.
      * destruct Hf as [-> Hf]. exists OWGenesis, (c_genesis c). simpl; auto.
      * destruct Hf as [-> Hf]. exists OWGenesis, (c_genesis c). simpl; auto.
    + destruct f as [x|x ty l|x k a|x ty go d]; simpl in Hf; try (destruct Hf; fail);
      destruct Hf as [-> Hf]; exists (OWTransition (wb_id wb) (op_ty t)), t; (split; [|exact Hf]);
      (split; [reflexivity|]); right; left; exists wb; auto.
    + destruct f as [x|x ty l|x k a|x ty go d]; simpl in Hf; try (destruct Hf; fail);
      destruct Hf as [-> Hf]; exists (OWExtension w (op_ty e)), e; (split; [|exact Hf]);
      (split; [reflexivity|]); right; right; exists w; auto.
  - intros f Hf.
    destruct f as [x|x ty l|x k a|x ty go d].
    + destruct Hf as (c' & r' & E & ->). injection E as <- <-. left. simpl. auto.
    + destruct Hf as (ow & o & vals & (-> & [(-> & ->)|[(wb & Hwb & Ho & ->)|(w & Ho & Fw & ->)]]) & Hr).
      * left. right. simpl. eauto.
      * right; left. exists wb. split; [exact Hwb|]. exists o. simpl; eauto.
      * right; right. exists o. split; [exact Ho|]. exists w. simpl; eauto.
    + destruct Hf as (ow & o & (-> & [(-> & ->)|[(wb & Hwb & Ho & ->)|(w & Ho & Fw & ->)]]) & Hr).
      * left. left. simpl. auto.
      * right; left. exists wb. split; [exact Hwb|]. exists o. simpl; auto.
      * right; right. exists o. split; [exact Ho|]. exists w. simpl; auto.
    + destruct Hf as (ow & o & (-> & [(-> & ->)|[(wb & Hwb & Ho & ->)|(w & Ho & Fw & ->)]]) & Hr).
      * left. left. simpl. auto.
      * right; left. exists wb. split; [exact Hwb|]. exists o. simpl; auto.
      * right; right. exists o. split; [exact Ho|]. exists w. simpl; auto.
Qed.

Lemma mget_map_key {K V W} `{OrdKey K} (f : K * V -> W) (m : omap K V) k :
  mget k (map (fun p => (fst p, f p)) m) = option_map (fun v => f (k, v)) (mget k m).
Proof.
  induction m as [|[k' v'] m IH]; simpl; [reflexivity|].
  destruct (keqb_spec k k') as [->|]; [reflexivity|exact IH].
Qed.

Lemma msorted_map_key {K V W} `{OrdKey K} (f : K * V -> W) (m : omap K V) :
  msorted m -> msorted (map (fun p => (fst p, f p)) m).
Proof.
  unfold msorted. induction 1 as [|[k v] m S IH F]; simpl; [constructor|].
  constructor; [exact IH|]. apply Forall_forall. intros p Hp. apply in_map_iff in Hp.
  destruct Hp as (q & <- & Hq). rewrite Forall_forall in F. exact (F q Hq).
Qed.

Definition new_status (r : Resolver) (after : N) (w : WitnessId) (ord : WitnessOrd) : WitnessOrd :=
  if skip_witness after ord then ord else match r w with Some o => o | None => ord end.

Lemma update_witnesses_get r after s w :
  mget w (ms_witnesses (fst (update_witnesses r after s))) =
  option_map (new_status r after w) (mget w (ms_witnesses s)).
Proof.
  unfold update_witnesses. cbn [fst set_witnesses ms_witnesses].
  rewrite (mget_map_key (fun p : WitnessId * WitnessOrd => if skip_witness after (snd p) then snd p
                            else match r (fst p) with Some ord => ord | None => snd p end)).
  destruct (mget w (ms_witnesses s)); reflexivity.
Qed.

Lemma adds_update_witnesses r after : sadds (update_witnesses r after) snone snone.
Proof.
  intros s s' res E W. pose proof (update_witnesses_get r after s) as G. rewrite E in G. simpl in G.
  assert (Ec : ms_contracts s' = ms_contracts s).
  { unfold update_witnesses in E. injection E as <- <-. reflexivity. }
  assert (Es : forall f, sstates s' f <-> sstates s f).
  { intros f. destruct f; unfold sstates; rewrite Ec; reflexivity. }
  split; [|split; [|split; [|split]]].
  - destruct W as [Ww Wc Wcs Wr]. constructor; try rewrite Ec; auto.
    + unfold update_witnesses in E. injection E as <- <-. apply msorted_map_key, Ww.
    + intros cid cs Hc. eapply refs_more; [|eapply Wr; eauto].
      intros w ord Hw. rewrite G, Hw. simpl. eauto.
  - intros f Hf. left. apply Es, Hf.
  - intros f _ Hf. apply Es, Hf.
  - intros [c|c ty l|c k a|c ty go d]; unfold shas.
    + intros Hf. apply Es, Hf.
    + intros (l0 & Hf). exists l0. apply Es, Hf.
    + intros (b & Hb & Hf). exists b. split; [exact Hb|]. apply Es, Hf.
    + intros (d0 & Hf). exists d0. apply Es, Hf.
  - intros a _ f [].
Qed.

Lemma adds_state_call H c : sadds (state_call H c) (sannounces H c) (sgoals H c).
Proof.
  destruct c as [c r|cid b w r|r after]; simpl.
  - apply adds_update_from_consignment.
  - apply adds_update_from_bundle.
  - eapply sadds_ext; [| |apply sadds_bind; [apply adds_update_witnesses|intros _; apply sadds_ret]].
    + intros f [[]|[]].
    + intros f Hf. destruct f; simpl in Hf.
      * destruct Hf as (c' & r' & E & _). discriminate.
      * destruct Hf as (ow & o & vals & [] & _).
      * destruct Hf as (ow & o & [] & _).
      * destruct Hf as (ow & o & [] & _).
Qed.

(** ** Histories *)

Lemma state_calls_app H l1 l2 s : state_calls H (l1 ++ l2) s = state_calls H l2 (state_calls H l1 s).
Proof. apply fold_left_app. Qed.

Lemma scall_adds H c s : swf s ->
  let s' := fst (state_call H c s) in
  swf s' /\ (forall f, sstates s' f -> sstates s f \/ sannounces H c f) /\
  (forall f, overwritable f = false -> sstates s f -> sstates s' f) /\
  (forall f, shas s f -> shas s' f) /\
  (ssucceeds H s c -> forall f, sgoals H c f -> shas s' f).
Proof.
  intros W s'. unfold s'. destruct (state_call H c s) as [s1 r] eqn:E. simpl.
  destruct (adds_state_call H c _ _ _ E W) as (W' & S & K & L & C).
  split; [exact W'|]. split; [exact S|]. split; [exact K|]. split; [exact L|].
  intros [s2 E2] f Hf. rewrite E in E2. injection E2 as -> ->. apply (C tt eq_refl). auto.
Qed.

Lemma scalls_adds H l s : swf s ->
  let s' := state_calls H l s in
  swf s' /\ (forall f, sstates s' f -> sstates s f \/ exists c, In c l /\ sannounces H c f) /\
  (forall f, overwritable f = false -> sstates s f -> sstates s' f) /\
  (forall f, shas s f -> shas s' f) /\
  (sall_succeed H s l -> forall c f, In c l -> sgoals H c f -> shas s' f).
Proof.
  revert s. induction l as [|c l IH]; intros s W; simpl.
  - split; [exact W|]. split; [auto|]. split; [auto|]. split; [auto|]. intros _ c f [].
  - destruct (scall_adds H c s W) as (W1 & S1 & K1 & L1 & C1).
    destruct (IH _ W1) as (W2 & S2 & K2 & L2 & C2).
    split; [exact W2|]. split; [|split; [|split]].
    + intros f Hf. destruct (S2 f Hf) as [Hx|(c' & Hc & Ha)]; [|right; exists c'; auto].
      destruct (S1 f Hx) as [Hy|Hy]; [auto|]. right; exists c; auto.
    + auto.
    + auto.
    + intros [Hok Hoks] c' f [<-|Hin] Ha; [apply L2, C1; auto|eapply C2; eauto].
Qed.

Lemma safter_wf H l : swf (state_after H l).
Proof. apply (scalls_adds H l ms_empty swf_empty). Qed.

Lemma safter_sound H l f : sstates (state_after H l) f -> exists c, In c l /\ sannounces H c f.
Proof.
  intros Hf. destruct (scalls_adds H l ms_empty swf_empty) as (_ & S & _).
  destruct (S f Hf) as [Hx|Hx]; [|exact Hx]. destruct f; simpl in Hx.
  - destruct Hx as (cs & Hx). discriminate.
  - destruct Hx as (cs & g & Hx & _). discriminate.
  - destruct Hx as (cs & Hx & _). discriminate.
  - destruct Hx as (cs & g & Hx & _). discriminate.
Qed.

Lemma safter_complete H l c f : sall_succeed H ms_empty l -> In c l -> sgoals H c f ->
  shas (state_after H l) f.
Proof. intros Hok. apply (scalls_adds H l ms_empty swf_empty). exact Hok. Qed.

(** ** Equal operation ids *)

Lemma same_id_conceal H o o' : collision_free H -> op_id H o = op_id H o' -> conceal_op H o = conceal_op H o'.
Proof. intros (_ & _ & Ho & _) E. apply Ho in E. exact E. Qed.

Lemma shows_fun H o o' ow ow' ty go d d' : collision_free H -> op_sorted o -> op_sorted o' ->
  shows H o ow ty go d -> shows H o' ow' ty go d' -> d = d'.
Proof.
  intros HC [_ S] [_ S'] (v & no & Hin & Hn & E) (v' & no' & Hin' & Hn' & E').
  rewrite E in E'. injection E' as Ei En Ex Ew. apply Nat2N.inj in Ex. subst no'.
  apply same_id_conceal in Ei; [|exact HC].
  apply (f_equal op_globals) in Ei. simpl in Ei. rewrite <- Ei in Hin', S'.
  apply In_mget in Hin; [|exact S]. apply In_mget in Hin'; [|exact S].
  rewrite Hin in Hin'. apply Some_inj in Hin'. subst v'. congruence.
Qed.

Lemma seal_output_fun w s o o' : seal_output w s o -> seal_output w s o' -> o = o'.
Proof. intros A B. apply assign_output_spec in A, B. congruence. Qed.

Lemma reveals_fun H o o' ow ow' k k' a a' : collision_free H -> op_sorted o -> op_sorted o' ->
  reveals H o ow k a -> reveals H o' ow' k' a' -> same_out a a' ->
  k = k' /\ oa_state a = oa_state a' /\ op_id H o = op_id H o' /\
  (exists seal, (exists ty ta no st, In (ty, ta) (op_assigns o) /\ nth_error (ta_list ta) no = Some (Revealed seal st)) /\
     seal_output (op_witness ow) seal (oa_seal a) /\ seal_output (op_witness ow') seal (oa_seal a)).
Proof.
  intros HC [S _] [S' _] (ty & ta & no & seal & st & Hin & Hk & Hn & Ho & E1 & E2 & E3)
    (ty' & ta' & no' & seal' & st' & Hin' & Hk' & Hn' & Ho' & E1' & E2' & E3') [So Ss].
  rewrite E1, E1' in So. injection So as Ei Et En. apply Nat2N.inj in En. subst no' ty'.
  pose proof (same_id_conceal _ _ _ HC Ei) as Ec.
  apply (f_equal op_assigns) in Ec. simpl in Ec.
  apply In_mget in Hin; [|exact S]. apply In_mget in Hin'; [|exact S'].
  assert (Em : mget ty (conceal_assigns H (op_assigns o)) = mget ty (conceal_assigns H (op_assigns o'))) by congruence.
  unfold conceal_assigns in Em. rewrite !mget_mmap, Hin, Hin' in Em. simpl in Em. apply Some_inj in Em.
  injection Em as Ek El.
  assert (En : nth_error (map (conceal H) (ta_list ta)) no = nth_error (map (conceal H) (ta_list ta')) no) by congruence.
  rewrite (map_nth_error _ _ _ Hn), (map_nth_error _ _ _ Hn') in En. simpl in En. apply Some_inj in En.
  injection En as Es Est. destruct HC as (Cs & Cst & _).
  apply Cs in Es. apply Cst in Est. subst seal' st'.
  split; [congruence|]. split; [congruence|]. split; [exact Ei|].
  exists seal. split; [|split; [exact Ho|]].
  - exists ty, ta, no, st. apply mget_In in Hin. auto.
  - rewrite Ss. exact Ho'.
Qed.

(** A seal on the witness transaction tells the witness. *)
Lemma seal_output_witness w w' seal out : s_txid seal = None ->
  seal_output w seal out -> seal_output w' seal out -> w = w'.
Proof.
  unfold seal_output. intros E (_ & _ & _ & A) (_ & _ & _ & B). rewrite E in A, B.
  destruct w as [w|], w' as [w'|]; try tauto. destruct A as [A1 A2], B as [B1 B2].
  f_equal. destruct w, w'; simpl in *; congruence.
Qed.

(** ** Reading *)

Lemma contract_state_inv s cid c : contract_state s cid = Ok c ->
  mget cid (ms_contracts s) = Some (mc_state c) /\
  mc_filter c = filter (fun p => refers (mc_state c) (fst p)) (ms_witnesses s).
Proof.
  unfold contract_state. destruct (mget cid (ms_contracts s)) as [cs|]; cbn [ok_or rbind]; [|discriminate].
  intros E. apply Ok_inj in E. subst c. auto.
Qed.

Lemma contract_state_ok s cid : (exists c, contract_state s cid = Ok c) <-> sstates s (SFContract cid).
Proof.
  unfold contract_state. simpl. destruct (mget cid (ms_contracts s)) as [cs|]; cbn [ok_or rbind].
  - split; eauto.
  - split; [intros [c E]; discriminate|intros [cs E]; discriminate].
Qed.

Lemma mget_filter_key {K V} `{OrdKey K} (f : K -> bool) (m : omap K V) k :
  mget k (filter (fun p => f (fst p)) m) = if f k then mget k m else None.
Proof.
  induction m as [|[k' v] m IH]; simpl; [destruct (f k); reflexivity|].
  destruct (f k') eqn:Ef; simpl.
  - destruct (keqb_spec k k') as [->|Ne]; [rewrite Ef; reflexivity|exact IH].
  - rewrite IH. destruct (keqb_spec k k') as [->|Ne]; [rewrite Ef; reflexivity|reflexivity].
Qed.

Lemma refers_out cs k key p w : mget key (cs_outs k cs) = Some p -> snd p = Some w -> refers cs w = true.
Proof.
  intros Hk Hp. apply mget_In in Hk.
  assert (E : existsb (fun a => by_witness w (snd a)) (mvals (cs_outs k cs)) = true).
  { apply existsb_exists. exists p. split; [apply in_map_iff; exists (key, p); auto|].
    unfold by_witness. rewrite Hp. apply keqb_refl. }
  unfold refers. destruct k; simpl in E; rewrite E; repeat rewrite orb_true_r; reflexivity.
Qed.

Lemma refers_global cs ty g go d w : mget ty (cs_global cs) = Some g -> mget go (mg_known g) = Some d ->
  op_witness (go_witness go) = Some w -> refers cs w = true.
Proof.
  intros Hg Hd Hw. apply mget_In in Hg, Hd. unfold refers.
  assert (E : existsb (fun g => existsb (fun o => by_witness w (op_witness (go_witness o))) (mkeys (mg_known g)))
                (mvals (cs_global cs)) = true).
  { apply existsb_exists. exists g. split; [apply in_map_iff; exists (ty, g); auto|].
    apply existsb_exists. exists go. split; [apply in_map_iff; exists (go, d); auto|].
    unfold by_witness. rewrite Hw. apply keqb_refl. }
  rewrite E. reflexivity.
Qed.

Lemma ord_valid_spec ord : ord_valid ord = true <-> ord <> Archived.
Proof. destruct ord; simpl; split; congruence. Qed.

Lemma outs_all_spec s cid c k a : swf s -> contract_state s cid = Ok c ->
  (In a (outs_all k c) <-> sstates s (SFOut cid k a) /\ live s (oa_witness a)).
Proof.
  intros W E. apply contract_state_inv in E. destruct E as [Ec Ef].
  unfold outs_all. rewrite filter_In, in_map_iff.
  assert (HS : (exists x, out_assign x = a /\ In x (cs_outs k (mc_state c))) <-> sstates s (SFOut cid k a)).
  { simpl. split.
    - intros ([key p] & <- & Hin). exists (mc_state c). split; [exact Ec|].
      apply In_mget in Hin; [|apply (swf_cs _ W _ _ Ec)]. destruct key, p; exact Hin.
    - intros (cs & Hc & Hg). rewrite Ec in Hc. apply Some_inj in Hc. subst cs.
      exists ((oa_opout a, oa_seal a), (oa_state a, oa_witness a)). split; [destruct a; reflexivity|].
      apply mget_In, Hg. }
  rewrite HS. clear HS. split.
  - intros [Hs Hc]. split; [exact Hs|]. unfold check_witness in Hc. unfold live.
    destruct (oa_witness a) as [w|] eqn:Ew; [|exact I].
    rewrite Ef, mget_filter_key in Hc. destruct (refers (mc_state c) w); [|discriminate].
    destruct (mget w (ms_witnesses s)) as [ord|]; [|discriminate]. exists ord. split; [reflexivity|].
    apply ord_valid_spec, Hc.
  - intros [Hs Hl]. split; [exact Hs|]. unfold check_witness. unfold live in Hl.
    destruct (oa_witness a) as [w|] eqn:Ew; [|reflexivity].
    destruct Hl as (ord & Ho & Hv). rewrite Ef, mget_filter_key.
    destruct Hs as (cs & Hc & Hg). rewrite Ec in Hc. apply Some_inj in Hc. subst cs.
    rewrite (refers_out _ _ _ _ w Hg) by (simpl; exact Ew). rewrite Ho. apply ord_valid_spec, Hv.
Qed.

Lemma NoDup_filter_map {A B} (f : A -> bool) (g : A -> B) l : NoDup (map g l) -> NoDup (map g (filter f l)).
Proof.
  induction l as [|a l IH]; simpl; intros ND; [constructor|].
  inversion ND as [|x y Hn ND']; subst. destruct (f a); simpl; [|auto]. constructor; [|auto].
  intros Hin. apply Hn. apply in_map_iff in Hin. destruct Hin as (b & <- & Hb).
  apply filter_In in Hb. apply in_map, Hb.
Qed.

Lemma outs_all_once s cid c k : swf s -> contract_state s cid = Ok c ->
  NoDup (map (fun a => (oa_opout a, oa_seal a)) (outs_all k c)).
Proof.
  intros W E. apply contract_state_inv in E. destruct E as [Ec Ef].
  unfold outs_all. apply NoDup_filter_map. rewrite map_map.
  rewrite map_ext with (g := fst); [|intros [[x y] z]; reflexivity].
  apply msorted_NoDup, (swf_cs _ W _ _ Ec).
Qed.

Lemma filter_swap {A} (f g : A -> bool) l : filter f (filter g l) = filter g (filter f l).
Proof.
  induction l as [|a l IH]; simpl; [reflexivity|].
  destruct (g a) eqn:Eg, (f a) eqn:Ef; simpl; rewrite ?Eg, ?Ef, IH; reflexivity.
Qed.

Lemma global_ord_spec s cid c ty g go d : swf s -> contract_state s cid = Ok c ->
  mget ty (cs_global (mc_state c)) = Some g -> mget go (mg_known g) = Some d ->
  exists ord, global_ord (mc_filter c) go = Some ord /\ placed s go ord.
Proof.
  intros W E Hg Hd. apply contract_state_inv in E. destruct E as [Ec Ef].
  destruct (swf_refs _ W _ _ Ec) as [_ R]. unfold global_ord, placed.
  pose proof (fun w => refers_global _ _ _ _ _ w Hg Hd) as RG. pose proof (fun w => R _ _ _ _ w Hg Hd) as R'.
  destruct (go_witness go) as [|w t|w t] eqn:Ew; [eauto|..];
    (destruct (R' w eq_refl) as [o Ho]; rewrite Ef, mget_filter_key, (RG w eq_refl), Ho; eauto).
Qed.

Lemma filter_map_all {A B} (f : A -> option B) l : (forall a, In a l -> exists b, f a = Some b) ->
  length (filter_map f l) = length l.
Proof.
  induction l as [|a l IH]; intros Hf; simpl; [reflexivity|].
  destruct (Hf a (or_introl eq_refl)) as [b ->]. simpl. f_equal. apply IH. intros x Hx. apply Hf. right; exact Hx.
Qed.

(** Everything reported is stored; the number reported is the smaller of the limit and the
    number stored; everything stored is reported when within the limit. *)
Lemma global_values_spec s cid c ty l : swf s -> contract_state s cid = Ok c ->
  global_values c ty = Some l ->
  exists limit known, sstates s (SFLimit cid ty limit) /\
    NoDup (map fst known) /\ (forall go d, In (go, d) known <-> sstates s (SFGlobal cid ty go d)) /\
    length l = Nat.min (N.to_nat limit) (length known) /\
    (forall ord d, In (ord, d) l -> exists go, sstates s (SFGlobal cid ty go d) /\ placed s go ord) /\
    ((length known <= N.to_nat limit)%nat ->
     forall go d, sstates s (SFGlobal cid ty go d) -> exists ord, placed s go ord /\ In (ord, d) l).
Proof.
  intros W E. unfold global_values. destruct (mget ty (cs_global (mc_state c))) as [g|] eqn:Eg; [|discriminate].
  intros El. apply Some_inj in El. pose proof (contract_state_inv _ _ _ E) as [Ec Ef].
  destruct (swf_cs _ W _ _ Ec) as [_ Sg]. specialize (Sg _ _ Eg).
  assert (HK : forall go d, In (go, d) (mg_known g) <-> sstates s (SFGlobal cid ty go d)).
  { intros go d. simpl. split.
    - intros Hin. apply In_mget in Hin; [|exact Sg]. exists (mc_state c), g. auto.
    - intros (cs & g' & Hc & Hg & Hd). rewrite Ec in Hc. apply Some_inj in Hc. subst cs.
      rewrite Eg in Hg. apply Some_inj in Hg. subst g'. apply mget_In, Hd. }
  set (f := fun p : GlobalOut * N => match global_ord (mc_filter c) (fst p) with
                                     | Some ord => Some (ord, snd p) | None => None end) in *.
  assert (Hf : forall p, In p (rev (mg_known g)) -> exists ord, f p = Some (ord, snd p) /\ placed s (fst p) ord).
  { intros [go d] Hp. apply in_rev in Hp. apply In_mget in Hp; [|exact Sg].
    destruct (global_ord_spec _ _ _ _ _ _ _ W E Eg Hp) as (ord & Ho & Hpl).
    exists ord. unfold f. simpl. rewrite Ho. auto. }
  exists (mg_limit g), (mg_known g). split; [exists (mc_state c), g; auto|].
  split; [apply msorted_NoDup, Sg|]. split; [exact HK|].
  assert (Hlen : length (filter_map f (rev (mg_known g))) = length (mg_known g)).
  { rewrite filter_map_all, rev_length; [reflexivity|]. intros p Hp. destruct (Hf p Hp) as (ord & Ho & _). eauto. }
  split; [subst l; rewrite firstn_length, Hlen; reflexivity|].
  assert (Hin : forall ord d, In (ord, d) (filter_map f (rev (mg_known g))) ->
            exists go, sstates s (SFGlobal cid ty go d) /\ placed s go ord).
  { intros ord d Ho. apply filter_map_In in Ho. destruct Ho as ([go d'] & Hp & Ho).
    destruct (Hf _ Hp) as (ord' & Ho' & Hpl). rewrite Ho in Ho'. apply Some_inj in Ho'. injection Ho' as -> ->.
    exists go. split; [|exact Hpl]. apply HK, in_rev, Hp. }
  split.
  - intros ord d Ho. apply Hin. subst l. rewrite <- (firstn_skipn (N.to_nat (mg_limit g)) (filter_map f _)).
    apply in_or_app. left. exact Ho.
  - intros Hle go d Hs. apply HK in Hs. apply in_rev in Hs. destruct (Hf _ Hs) as (ord & Ho & Hpl).
    exists ord. split; [exact Hpl|]. subst l. rewrite firstn_all2 by (rewrite Hlen; exact Hle).
    apply filter_map_In. exists (go, d). auto.
Qed.

(** ** Status of witnesses *)

(** [m] sets the status of some witnesses in [T] to the resolved one and touches no other;
    when it succeeds, all of [T]. *)
Definition wsets {A} (m : SM A) (r : Resolver) (T : WitnessId -> Prop) : Prop :=
  forall s s' res, m s = (s', res) ->
    (forall w, mget w (ms_witnesses s') = mget w (ms_witnesses s) \/
               T w /\ r w <> None /\ mget w (ms_witnesses s') = r w) /\
    (forall a, res = Ok a -> forall w, T w -> r w <> None /\ mget w (ms_witnesses s') = r w).

Lemma wsets_ext {A} (m : SM A) r (T T' : WitnessId -> Prop) :
  (forall w, T w <-> T' w) -> wsets m r T -> wsets m r T'.
Proof.
  intros HT Hm s s' res E. destruct (Hm s s' res E) as [A1 A2]. split.
  - intros w. destruct (A1 w) as [Hx|(H1 & H2 & H3)]; [auto|]. right. apply HT in H1. auto.
  - intros a Ea w Hw. apply (A2 a Ea). apply HT, Hw.
Qed.

Lemma wsets_bind {A B} (m : SM A) (k : A -> SM B) r T T' :
  wsets m r T -> (forall a, wsets (k a) r T') -> wsets (bind m k) r (fun w => T w \/ T' w).
Proof.
  intros Hm Hk s s' res E. unfold bind in E. destruct (m s) as [s1 [a|e|]] eqn:E1.
  - destruct (Hm _ _ _ E1) as [A1 A2]. destruct (Hk a _ _ _ E) as [B1 B2]. split.
    + intros w. destruct (B1 w) as [Hx|(H1 & H2 & H3)]; [|right; auto].
      rewrite Hx. destruct (A1 w) as [Hy|(H1 & H2 & H3)]; [auto|right; auto].
    + intros b Eb w [Hw|Hw]; [|apply (B2 b Eb w Hw)].
      destruct (A2 a eq_refl w Hw) as [Hr Hg]. split; [exact Hr|].
      destruct (B1 w) as [Hx|(H1 & H2 & H3)]; congruence.
  - injection E as <- <-. destruct (Hm _ _ _ E1) as [A1 A2]. split; [|discriminate].
    intros w. destruct (A1 w) as [Hx|(H1 & H2 & H3)]; [auto|right; auto].
  - injection E as <- <-. destruct (Hm _ _ _ E1) as [A1 A2]. split; [|discriminate].
    intros w. destruct (A1 w) as [Hx|(H1 & H2 & H3)]; [auto|right; auto].
Qed.

Lemma wsets_same {A} (m : SM A) r : (forall s, ms_witnesses (fst (m s)) = ms_witnesses s) ->
  wsets m r (fun _ => False).
Proof.
  intros Hm s s' res E. specialize (Hm s). rewrite E in Hm. simpl in Hm. split.
  - intros w. left. congruence.
  - intros a _ w [].
Qed.

Lemma wsets_mfor {A} (g : A -> SM unit) l r (T : A -> WitnessId -> Prop) :
  (forall x, In x l -> wsets (g x) r (T x)) -> wsets (mfor g l) r (fun w => exists x, In x l /\ T x w).
Proof.
  induction l as [|x l IH]; intros Hg; simpl.
  - eapply wsets_ext; [|apply wsets_same; reflexivity].
    intros w. split; [intros []|intros (y & [] & _)].
  - eapply wsets_ext; [|apply wsets_bind; [apply Hg; left; reflexivity|intros _; apply IH; intros y Hy; apply Hg; right; exact Hy]].
    intros w. split.
    + intros [Hw|(y & Hy & Hw)]; [exists x|exists y]; auto.
    + intros (y & [<-|Hy] & Hw); [left; exact Hw|right; exists y; auto].
Qed.

Lemma on_contract_witnesses cid f s : ms_witnesses (fst (on_contract cid f s)) = ms_witnesses s.
Proof.
  unfold on_contract. destruct (mget cid (ms_contracts s)) as [cs|]; [|reflexivity].
  destruct (f cs); reflexivity.
Qed.

Lemma wsets_resolved r w cid f :
  wsets (do! ord <- resolve r w ;; (set_witness w ord ;;! on_contract cid f)) r (fun x => x = w).
Proof.
  intros s s' res E. unfold bind at 1, resolve, lift in E. destruct (r w) as [ord|] eqn:Er; cbn [ok_or] in E.
  2: { injection E as <- <-. split; [auto|discriminate]. }
  unfold bind in E. destruct (set_witness w ord s) as [s1 [[]|e|]] eqn:E1.
  - apply set_witness_ok in E1. pose proof (on_contract_witnesses cid f s1) as Hw. rewrite E in Hw. simpl in Hw.
    assert (Hg : mget w (ms_witnesses s') = Some ord).
    { rewrite Hw, E1. simpl. apply mget_insert_eq. }
    split.
    + intros x. destruct (key_dec w x) as [<-|Ne].
      * right. split; [reflexivity|]. split; congruence.
      * left. rewrite Hw, E1. simpl. apply mget_insert_ne, Ne.
    + intros a _ x ->. split; congruence.
  - injection E as <- <-. apply set_witness_err in E1. subst s1. split; [auto|discriminate].
  - apply set_witness_nopanic in E1. destruct E1.
Qed.

Lemma st_register_witnesses H schema g s : ms_witnesses (fst (st_register H schema g s)) = ms_witnesses s.
Proof.
  unfold st_register. unfold bind at 1, get. destruct (mhas _ _).
  - unfold bind, ret, add_genesis. apply on_contract_witnesses.
  - destruct (cinsert _ _ _ _) as [m|]; [|reflexivity].
    unfold bind, put, add_genesis. rewrite on_contract_witnesses. reflexivity.
Qed.

Lemma nonempty_In {A} (l : list A) : l <> [] <-> exists a, In a l.
Proof.
  destruct l as [|a l]; split; try congruence.
  - intros [a []].
  - intros _. exists a. left; reflexivity.
Qed.

Lemma wsets_consignment H c r : wsets (update_from_consignment H c r) r (touches (StConsignment c r)).
Proof.
  unfold update_from_consignment.
  eapply wsets_ext; [|apply wsets_bind; [apply wsets_same, st_register_witnesses|intros _; apply wsets_bind; [|intros _]]].
  2: { apply (wsets_mfor _ _ _ (fun wb w => exists t, In t (wb_known_transitions wb) /\ w = wb_id wb)).
       intros wb _. apply (wsets_mfor _ _ _ (fun _ w => w = wb_id wb)). intros t _. apply wsets_resolved. }
  2: { apply (wsets_mfor _ _ _ (fun e w => extension_witness c (op_id H e) = Some w)).
       intros e _. destruct (extension_witness c (op_id H e)) as [w|].
       - eapply wsets_ext; [|apply wsets_resolved]. intros x. split; congruence.
       - eapply wsets_ext; [|apply wsets_same; reflexivity]. intros x. split; [intros []|discriminate]. }
  intros w. simpl. split.
  - intros [[]|[(wb & Hwb & t & Ht & ->)|(e & He & Hw)]].
    + exists wb. split; [exact Hwb|]. split; [|reflexivity]. apply nonempty_In. eauto.
    + apply extension_witness_spec in Hw. destruct Hw as (b & wb & a & E & <- & (t & Ht & _) & _).
      exists wb. split; [rewrite E; apply in_or_app; right; left; reflexivity|].
      split; [|reflexivity]. apply nonempty_In. eauto.
  - intros (wb & Hwb & Hne & <-). apply nonempty_In in Hne. destruct Hne as [t Ht]. right; left. eauto.
Qed.

Lemma wsets_bundle H cid b w r : wsets (update_from_bundle H cid b w r) r (touches (StBundle cid b w r)).
Proof.
  unfold update_from_bundle. intros s s' res E. unfold bind at 1, get in E.
  revert s s' res E. intros s0. generalize (mhas cid (ms_contracts s0)). intros known.
  assert (HW : wsets ((if known then ret tt else fail (UnknownContract cid)) ;;!
     mfor (fun t => do! ord <- resolve r w ;; add_transition H cid t w ord) (mvals (b_known b))) r
     (touches (StBundle cid b w r))).
  { eapply wsets_ext; [|apply wsets_bind; [|intros _; apply (wsets_mfor _ _ _ (fun _ x => x = w)); intros t _; apply wsets_resolved]].
    2: { instantiate (1 := fun _ => False). apply wsets_same. destruct known; reflexivity. }
    intros x. simpl. split.
    - intros [[]|(t & Ht & ->)]. split; [|reflexivity]. apply in_map_iff in Ht. destruct Ht as (p & _ & Hp).
      apply nonempty_In. eauto.
    - intros [Hne ->]. apply nonempty_In in Hne. destruct Hne as [p Hp]. right. exists (snd p).
      split; [apply in_map, Hp|reflexivity]. }
  intros s' res E. exact (HW _ _ _ E).
Qed.

(** ** The same call again *)

(** The global state types of a contract are kept in order. *)
Definition gsorted (s : MemState) : Prop :=
  forall cid cs, mget cid (ms_contracts s) = Some cs -> msorted (cs_global cs).

Definition keeps {A} (P : MemState -> Prop) (m : SM A) : Prop := forall s, P s -> P (fst (m s)).
Lemma keeps_bind {A B} P (m : SM A) (k : A -> SM B) : keeps P m -> (forall a, keeps P (k a)) -> keeps P (bind m k).
Proof.
  intros Hm Hk s Hs. specialize (Hm s Hs). unfold bind. destruct (m s) as [s1 [a|e|]]; [apply Hk, Hm|exact Hm|exact Hm].
Qed.
Lemma keeps_mfor {A} P (g : A -> SM unit) l : (forall x, In x l -> keeps P (g x)) -> keeps P (mfor g l).
Proof.
  induction l as [|x l IH]; intros Hg; simpl; [intros s Hs; exact Hs|].
  apply keeps_bind; [apply Hg; left; reflexivity|]. intros _. apply IH. intros y Hy. apply Hg. right; exact Hy.
Qed.

Lemma add_globals_gsorted cs opid ow o cs' : msorted (cs_global cs) -> add_globals cs opid ow o = Ok cs' ->
  msorted (cs_global cs').
Proof.
  unfold add_globals. generalize (op_globals o). intros l. revert cs.
  induction l as [|[ty v] l IH]; intros cs S; cbn [rfold]; [intros E; apply Ok_inj in E; subst; exact S|].
  cbn [fst snd]. destruct (mget ty (cs_global cs)) as [g|]; cbn [expect rbind]; [|discriminate].
  match goal with |- context [rfold ?f (mg_known g) ?l'] =>
    destruct (rfold f (mg_known g) l') as [known|e|]; cbn [rbind]; [|discriminate|discriminate] end.
  apply IH. simpl. apply minsert_sorted, S.
Qed.
Lemma add_assignments_global cs w opid a cs' : add_assignments cs w opid a = Ok cs' -> cs_global cs' = cs_global cs.
Proof.
  unfold add_assignments. revert cs. induction a as [|[ty ta] a IH]; intros cs; cbn [rfold].
  - intros E. apply Ok_inj in E. subst. reflexivity.
  - cbn [fst snd]. destruct (process _ _ _ _ _) as [outs|e|]; cbn [rbind]; [|discriminate|discriminate].
    intros E. apply IH in E. exact E.
Qed.
Lemma add_operation_gsorted H cs ow o cs' : msorted (cs_global cs) -> add_operation H cs ow o = Ok cs' ->
  msorted (cs_global cs').
Proof.
  intros S E. unfold add_operation in E.
  destruct (add_globals cs (op_id H o) ow o) as [cs1|e|] eqn:E1; cbn [rbind] in E; [|discriminate|discriminate].
  apply add_assignments_global in E. rewrite E. eapply add_globals_gsorted; eauto.
Qed.
Lemma on_contract_gsorted H cid ow o : keeps gsorted (on_contract cid (fun cs => add_operation H cs ow o)).
Proof.
  intros s Hs. unfold on_contract. destruct (mget cid (ms_contracts s)) as [cs|] eqn:Ec; [|exact Hs].
  destruct (add_operation H cs ow o) as [cs'|e|] eqn:Ea; [|exact Hs|exact Hs].
  intros c x. simpl. destruct (key_dec cid c) as [<-|Ne].
  - rewrite mget_insert_eq. intros E. apply Some_inj in E. subst x. eapply add_operation_gsorted; eauto.
  - rewrite mget_insert_ne by exact Ne. apply Hs.
Qed.
Lemma set_witness_gsorted w ord : keeps gsorted (set_witness w ord).
Proof. intros s Hs. unfold set_witness. destruct (cinsert _ _ _ _); exact Hs. Qed.
Lemma resolve_gsorted r w : keeps gsorted (resolve r w).
Proof. intros s Hs. unfold resolve, lift. exact Hs. Qed.
Lemma register_gsorted H schema g : keeps gsorted (st_register H schema g).
Proof.
  intros s Hs. unfold st_register. unfold bind at 1, get. 
  match goal with |- gsorted (fst (bind ?m ?k s)) => assert (K : keeps gsorted (bind m k)); [|apply K, Hs] end.
  apply keeps_bind; [|intros _; apply on_contract_gsorted].
  destruct (mhas _ (ms_contracts s)); [intros s' Hs'; exact Hs'|].
  unfold cinsert. destruct (_ <? _); [|intros s' Hs'; exact Hs'].
  intros s' Hs'. unfold put. simpl. intros c x. simpl. destruct (key_dec (contract_id H g) c) as [<-|Ne].
  - rewrite mget_insert_eq. intros E. apply Some_inj in E. subst x. apply mfrom_sorted.
  - rewrite mget_insert_ne by exact Ne. apply Hs.
Qed.
Lemma call_gsorted H c : keeps gsorted (state_call H c).
Proof.
  destruct c as [c r|cid b w r|r after]; simpl.
  - unfold update_from_consignment. apply keeps_bind; [apply register_gsorted|intros _].
    apply keeps_bind; [|intros _]; apply keeps_mfor; intros x _.
    + apply keeps_mfor. intros t _. apply keeps_bind; [apply resolve_gsorted|intros ord].
      apply keeps_bind; [apply set_witness_gsorted|intros _; apply on_contract_gsorted].
    + destruct (extension_witness c (op_id H x)) as [w|]; [|intros s Hs; exact Hs].
      apply keeps_bind; [apply resolve_gsorted|intros ord].
      apply keeps_bind; [apply set_witness_gsorted|intros _; apply on_contract_gsorted].
  - unfold update_from_bundle. apply keeps_bind; [intros s Hs; exact Hs|intros s0].
    apply keeps_bind; [destruct (mhas _ _); intros s Hs; exact Hs|intros _].
    apply keeps_mfor. intros t _. apply keeps_bind; [apply resolve_gsorted|intros ord].
    apply keeps_bind; [apply set_witness_gsorted|intros _; apply on_contract_gsorted].
  - intros s Hs. exact Hs.
Qed.
Lemma after_gsorted H l : gsorted (state_after H l).
Proof.
  unfold state_after, state_calls. assert (G : gsorted ms_empty) by (intros c x; discriminate).
  revert G. generalize ms_empty. induction l as [|c l IH]; simpl; intros s Hs; [exact Hs|].
  apply IH, call_gsorted, Hs.
Qed.

(** Successful calls only meet assignments with a seal on a known output. *)
Definition op_fits (ow : OpWitness) (o : Operation) : Prop :=
  forall ty ta no seal st, In (ty, ta) (op_assigns o) -> nth_error (ta_list ta) no = Some (Revealed seal st) ->
    exists out, assign_output (op_witness ow) seal = Some out.

Definition needs {A} (m : SM A) (P : Prop) : Prop := forall s s' a, m s = (s', Ok a) -> P.
Lemma needs_l {A B} (m : SM A) (k : A -> SM B) P : needs m P -> needs (bind m k) P.
Proof.
  intros Hm s s' b E. unfold bind in E. destruct (m s) as [s1 [a|e|]] eqn:E1; try discriminate. eapply Hm; eauto.
Qed.
Lemma needs_r {A B} (m : SM A) (k : A -> SM B) P : (forall a, needs (k a) P) -> needs (bind m k) P.
Proof.
  intros Hk s s' b E. unfold bind in E. destruct (m s) as [s1 [a|e|]] eqn:E1; try discriminate. eapply Hk; eauto.
Qed.
Lemma needs_mfor {A} (g : A -> SM unit) l x P : In x l -> needs (g x) P -> needs (mfor g l) P.
Proof.
  intros Hx Hg. induction l as [|y l IH]; [destruct Hx|]. simpl. destruct Hx as [->|Hx].
  - apply needs_l, Hg.
  - apply needs_r. intros _. apply IH, Hx.
Qed.

Lemma process_fits outs l opid ty w outs' : process outs l opid ty w = Ok outs' ->
  forall no seal st, nth_error l no = Some (Revealed seal st) -> exists out, assign_output w seal = Some out.
Proof.
  unfold process. intros E no seal st Hn. apply enumerate_In in Hn. revert outs E Hn.
  generalize (enumerate l). intros l'. induction l' as [|[n x] l' IH]; intros outs E; [intros []|].
  cbn [rfold fst snd] in E. intros [Hx|Hx].
  - injection Hx as _ ->. simpl in E. destruct (assign_output w seal) as [out|]; [eauto|discriminate].
  - destruct (to_revealed x) as [[s0 st0]|]; cbn [rbind] in E; [|eapply IH; eauto].
    destruct (assign_output w s0) as [out|]; cbn [expect rbind] in E; [|discriminate].
    destruct (push_out _ _ _ _) as [o2|]; cbn [expect rbind] in E; [|discriminate]. eapply IH; eauto.
Qed.

Lemma needs_operation H cid ow o : needs (on_contract cid (fun cs => add_operation H cs ow o)) (op_fits ow o).
Proof.
  intros s s' a E. unfold on_contract in E. destruct (mget cid (ms_contracts s)) as [cs|]; [|discriminate].
  destruct (add_operation H cs ow o) as [cs'|e|] eqn:Ea; [|discriminate|discriminate]. clear E.
  unfold add_operation in Ea.
  destruct (add_globals cs (op_id H o) ow o) as [cs1|e|] eqn:E1; cbn [rbind] in Ea; [|discriminate|discriminate].
  clear E1. intros ty ta no seal st Hin Hn. unfold add_assignments in Ea. revert cs1 Ea Hin.
  generalize (op_assigns o). intros l. induction l as [|[ty' ta'] l IH]; intros cs1 Ea; [intros []|].
  cbn [rfold fst snd] in Ea. destruct (process _ _ _ _ _) as [outs|e|] eqn:Ep; cbn [rbind] in Ea; [|discriminate|discriminate].
  intros [Hx|Hx]; [|eapply IH; eauto]. injection Hx as -> ->. eapply process_fits; eauto.
Qed.

Lemma needs_resolved H cid ow o w r :
  needs (do! ord <- resolve r w ;; (set_witness w ord ;;! on_contract cid (fun cs => add_operation H cs ow o)))
        (op_fits ow o).
Proof. apply needs_r; intros ord. apply needs_r; intros _. apply needs_operation. Qed.

Lemma needs_call H c : needs (state_call H c) (forall cid ow o, imports H c cid ow o -> op_fits ow o).
Proof.
  intros s s' u E cid ow o Hi. revert s s' u E. change (needs (state_call H c) (op_fits ow o)).
  destruct c as [c r|cid' b w r|r after]; simpl in *.
  - destruct Hi as [-> [[-> ->]|[(wb & Hwb & Ho & ->)|(w & Ho & Hw & ->)]]].
    + apply needs_l. apply needs_r; intros s0. apply needs_r; intros _. apply needs_operation.
    + apply needs_r; intros _. apply needs_l. apply (needs_mfor _ _ wb); [exact Hwb|].
      apply (needs_mfor _ _ o); [exact Ho|]. apply needs_resolved.
    + apply needs_r; intros _. apply needs_r; intros _. apply (needs_mfor _ _ o); [exact Ho|].
      apply extension_witness_spec in Hw. rewrite Hw. apply needs_resolved.
  - destruct Hi as (-> & Ho & ->). apply needs_r; intros s0. apply needs_r; intros _.
    apply (needs_mfor _ _ o); [exact Ho|]. apply needs_resolved.
  - destruct Hi.
Qed.

(** All an operation brings is there. *)
Definition op_stored (H : Hashes) (cs : ContractState) (ow : OpWitness) (o : Operation) : Prop :=
  op_fits ow o /\
  (forall k a, reveals H o ow k a -> exists p, mget (oa_opout a, oa_seal a) (cs_outs k cs) = Some p) /\
  (forall ty vals, In (ty, vals) (op_globals o) -> exists g, mget ty (cs_global cs) = Some g /\
     forall no d, nth_error vals no = Some d ->
       mget {| go_op := op_id H o; go_nonce := op_nonce o; go_index := N.of_nat no; go_witness := ow |}
            (mg_known g) = Some d).

Definition cs_room (cs : ContractState) : Prop :=
  (forall k, len (cs_outs k cs) < U32MAX) /\
  (forall ty g, mget ty (cs_global cs) = Some g -> len (mg_known g) < U32MAX).

Lemma rfold_stay {S E A} (f : S -> A -> result E S) s l : (forall x, In x l -> f s x = Ok s) -> rfold f s l = Ok s.
Proof.
  induction l as [|x l IH]; intros Hf; [reflexivity|]. cbn [rfold]. rewrite Hf by (left; reflexivity).
  cbn [rbind]. apply IH. intros y Hy. apply Hf. right; exact Hy.
Qed.

Lemma cs_set_global_same cs : cs_set_global cs (cs_global cs) = cs.
Proof. destruct cs; reflexivity. Qed.
Lemma cs_set_outs_same k cs : cs_set_outs k cs (cs_outs k cs) = cs.
Proof. destruct cs, k; reflexivity. Qed.

Lemma add_operation_again H cs ow o : csw cs -> msorted (cs_global cs) -> cs_room cs ->
  op_stored H cs ow o -> add_operation H cs ow o = Ok cs.
Proof.
  intros [_ Sg] S [Ro Rg] (Hfit & Hout & Hglob). unfold add_operation.
  assert (EG : add_globals cs (op_id H o) ow o = Ok cs).
  { unfold add_globals. apply rfold_stay. intros [ty vals] Hin. cbn [fst snd].
    destruct (Hglob _ _ Hin) as (g & Eg & Hk). rewrite Eg. cbn [expect rbind].
    rewrite rfold_stay; cbn [rbind].
    - assert (Em : {| mg_known := mg_known g; mg_limit := mg_limit g |} = g) by (destruct g; reflexivity).
      rewrite Em, minsert_same by assumption. rewrite cs_set_global_same. reflexivity.
    - intros [no d] Hno. apply enumerate_In in Hno. cbn [fst snd]. unfold cinsert.
      rewrite (proj2 (N.ltb_lt _ _) (Rg _ _ Eg)). rewrite minsert_same; [reflexivity|apply (Sg _ _ Eg)|].
      apply Hk, Hno. }
  rewrite EG. cbn [rbind]. unfold add_assignments. apply rfold_stay. intros [ty ta] Hin. cbn [fst snd].
  assert (EP : process (cs_outs (ta_kind ta) cs) (ta_list ta) (op_id H o) ty (op_witness ow) = Ok (cs_outs (ta_kind ta) cs)).
  { unfold process. apply rfold_stay. intros [no a] Hno. apply enumerate_In in Hno. cbn [fst snd].
    destruct a as [| | |seal st]; try reflexivity. cbn [to_revealed].
    destruct (Hfit _ _ _ _ _ Hin Hno) as [out Eo]. rewrite Eo. cbn [expect rbind].
    unfold push_out. rewrite (proj2 (N.ltb_lt _ _) (Ro _)).
    destruct (Hout (ta_kind ta) {| oa_opout := opout (op_id H o) ty no; oa_seal := out; oa_state := st;
                      oa_witness := op_witness ow |}) as [p Hp].
    { exists ty, ta, no, seal, st. apply assign_output_spec in Eo. auto 10. }
    simpl in Hp. assert (Hh : mhas (opout (op_id H o) ty no, out) (cs_outs (ta_kind ta) cs) = true).
    { apply mhas_true. eauto. }
    match goal with |- context [if ?c then _ else _] => assert (Hc : c = true) by exact Hh; rewrite Hc end.
    reflexivity. }
  rewrite EP. cbn [rbind]. rewrite cs_set_outs_same. reflexivity.
Qed.

Lemma set_states_same s : set_states s (ms_contracts s) = s.
Proof. destruct s; reflexivity. Qed.

Lemma on_contract_again H cid ow o s : swf s -> gsorted s -> shas_room s ->
  (exists cs, mget cid (ms_contracts s) = Some cs /\ op_stored H cs ow o) ->
  on_contract cid (fun cs => add_operation H cs ow o) s = (s, Ok tt).
Proof.
  intros W G (_ & _ & R) (cs & Ec & St). unfold on_contract. rewrite Ec, add_operation_again.
  - rewrite minsert_same, set_states_same; [reflexivity|apply W|exact Ec].
  - apply (swf_cs _ W _ _ Ec).
  - apply (G _ _ Ec).
  - apply (R _ _ Ec).
  - exact St.
Qed.

Lemma set_witness_again w ord s : swf s -> shas_room s -> mget w (ms_witnesses s) = Some ord ->
  set_witness w ord s = (s, Ok tt).
Proof.
  intros W (R & _) E. unfold set_witness, cinsert. rewrite (proj2 (N.ltb_lt _ _) R).
  rewrite minsert_same; [destruct s; reflexivity|apply W|exact E].
Qed.

Lemma resolved_again H cid ow o w r s : swf s -> gsorted s -> shas_room s ->
  (exists cs, mget cid (ms_contracts s) = Some cs /\ op_stored H cs ow o) ->
  r w <> None /\ mget w (ms_witnesses s) = r w ->
  (do! ord <- resolve r w ;; (set_witness w ord ;;! on_contract cid (fun cs => add_operation H cs ow o))) s = (s, Ok tt).
Proof.
  intros W G R St [Hr Hw]. unfold bind, resolve, lift. destruct (r w) as [ord|]; [|congruence]. cbn [ok_or].
  rewrite set_witness_again by assumption. rewrite on_contract_again by assumption. reflexivity.
Qed.

Lemma mfor_again {A} (g : A -> SM unit) l s : (forall x, In x l -> g x s = (s, Ok tt)) -> mfor g l s = (s, Ok tt).
Proof.
  induction l as [|x l IH]; intros Hg; [reflexivity|]. simpl. unfold bind. rewrite Hg by (left; reflexivity).
  apply IH. intros y Hy. apply Hg. right; exact Hy.
Qed.

(** [s] has all [c] brings. *)
Lemma call_again H c s : swf s -> gsorted s -> shas_room s ->
  (forall cid ow o, imports H c cid ow o ->
     exists cs, mget cid (ms_contracts s) = Some cs /\ op_stored H cs ow o) ->
  (forall r, (exists c', c = StConsignment c' r) \/ (exists cid b w, c = StBundle cid b w r) ->
     forall w, touches c w -> r w <> None /\ mget w (ms_witnesses s) = r w) ->
  (forall cid b w r, c = StBundle cid b w r -> exists cs, mget cid (ms_contracts s) = Some cs) ->
  (forall r after, c = StUpdate r after -> fst (state_call H c s) = s) ->
  state_call H c s = (s, Ok tt).
Proof.
  intros W G R HI HT HB HU. destruct c as [c r|cid b w r|r after]; simpl.
  - assert (HT' := HT r (or_introl (ex_intro _ c eq_refl))). clear HT HB HU. simpl in HT', HI.
    unfold update_from_consignment. unfold bind at 1.
    assert (E1 : st_register H (c_schema c) (c_genesis c) s = (s, Ok tt)).
    { unfold st_register. unfold bind at 1, get.
      destruct (HI _ OWGenesis (c_genesis c) (conj eq_refl (or_introl (conj eq_refl eq_refl)))) as (cs & Ec & St).
      assert (Hh : mhas (contract_id H (c_genesis c)) (ms_contracts s) = true) by (apply mhas_true; eauto).
      rewrite Hh. unfold bind, ret, add_genesis. apply on_contract_again; eauto. }
    rewrite E1. unfold bind at 1. rewrite mfor_again.
    + apply mfor_again. intros e He. destruct (extension_witness c (op_id H e)) as [w|] eqn:Ew; [|reflexivity].
      apply extension_witness_spec in Ew. apply resolved_again; try assumption.
      * apply HI. split; [reflexivity|]. right; right. eauto.
      * apply HT'. destruct Ew as (b & wb & a & Eb & <- & (t & Ht & _) & _). exists wb.
        split; [rewrite Eb; apply in_or_app; right; left; reflexivity|]. split; [|reflexivity]. apply nonempty_In. eauto.
    + intros wb Hwb. apply mfor_again. intros t Ht. apply resolved_again; try assumption.
      * apply HI. split; [reflexivity|]. right; left. eauto.
      * apply HT'. exists wb. split; [exact Hwb|]. split; [|reflexivity]. apply nonempty_In. eauto.
  - assert (HT' := HT r (or_intror (ex_intro _ cid (ex_intro _ b (ex_intro _ w eq_refl))))).
    unfold update_from_bundle. unfold bind at 1, get. destruct (HB _ _ _ _ eq_refl) as (cs & Ec).
    assert (Hh : mhas cid (ms_contracts s) = true) by (apply mhas_true; eauto).
    rewrite Hh. unfold bind at 1, ret. apply mfor_again. intros t Ht. apply resolved_again; try assumption.
    + apply HI. simpl. auto.
    + apply HT'. simpl. split; [|reflexivity]. apply in_map_iff in Ht. destruct Ht as (p & _ & Hp).
      apply nonempty_In. eauto.
  - specialize (HU _ _ eq_refl). simpl in HU. unfold bind, ret in *.
    destruct (update_witnesses r after s) as [s1 [u|e|]] eqn:E; unfold update_witnesses in E; [|discriminate|discriminate].
    simpl in HU. congruence.
Qed.

Lemma new_status_again r after w ord : new_status r after w (new_status r after w ord) = new_status r after w ord.
Proof.
  unfold new_status. destruct (skip_witness after ord) eqn:E; [rewrite E; reflexivity|].
  destruct (r w) as [o|] eqn:Er; [|rewrite E; reflexivity]. destruct (skip_witness after o); reflexivity.
Qed.

Lemma update_again r after s : swf s ->
  fst (update_witnesses r after (fst (update_witnesses r after s))) = fst (update_witnesses r after s).
Proof.
  intros W. set (s1 := fst (update_witnesses r after s)).
  assert (W1 : swf s1).
  { apply (adds_update_witnesses r after s s1 _ (surjective_pairing _) W). }
  assert (W2 : swf (fst (update_witnesses r after s1))).
  { apply (adds_update_witnesses r after s1 _ _ (surjective_pairing _) W1). }
  assert (Em : ms_witnesses (fst (update_witnesses r after s1)) = ms_witnesses s1).
  { apply msorted_ext; [apply W2|apply W1|]. intros w. rewrite update_witnesses_get. unfold s1.
    rewrite update_witnesses_get. destruct (mget w (ms_witnesses s)); simpl; [|reflexivity].
    rewrite new_status_again. reflexivity. }
  assert (Ec : ms_contracts (fst (update_witnesses r after s1)) = ms_contracts s1) by reflexivity.
  destruct (fst (update_witnesses r after s1)), s1; simpl in *; congruence.
Qed.

Theorem state_again H history c s : collision_free H -> history_sorted H (c :: history) ->
  state_call H c (state_after H history) = (s, Ok tt) -> shas_room s ->
  state_call H c s = (s, Ok tt).
Proof.
  intros HC HS E R.
  assert (Es : s = state_after H (history ++ [c])).
  { unfold state_after. rewrite state_calls_app. simpl. fold (state_after H history). rewrite E. reflexivity. }
  assert (W : swf s) by (rewrite Es; apply safter_wf).
  assert (G : gsorted s) by (rewrite Es; apply after_gsorted).
  assert (HG : forall f, sgoals H c f -> shas s f).
  { intros f Hf. destruct (adds_state_call H c _ _ _ E (safter_wf H history)) as (_ & _ & _ & _ & C).
    apply (C tt eq_refl). exact Hf. }
  assert (HSound : forall f, sstates s f -> exists c', In c' (c :: history) /\ sannounces H c' f).
  { intros f Hf. rewrite Es in Hf. apply safter_sound in Hf. destruct Hf as (c' & Hin & Ha).
    exists c'. split; [|exact Ha]. apply in_app_or in Hin. destruct Hin as [Hin|[->|[]]]; [right; exact Hin|left; reflexivity]. }
  assert (Hcid : forall cid ow o, imports H c cid ow o -> exists cs, mget cid (ms_contracts s) = Some cs).
  { intros cid ow o Hi. destruct c as [c r|cid' b w r|r after]; simpl in Hi.
    - destruct Hi as [-> _]. apply (HG (SFContract _)). simpl. eauto.
    - destruct Hi as [-> _]. destruct (state_after H history) as [ws cs] eqn:Ea.
      cbn [state_call] in E. unfold update_from_bundle in E. unfold bind at 1, get in E. cbn [ms_contracts] in E.
      destruct (mhas cid' cs) eqn:Eh; [|discriminate]. apply mhas_true in Eh.
      assert (Hk : sstates (state_after H history) (SFContract cid')) by (rewrite Ea; exact Eh).
      rewrite <- Ea in *. 
      destruct (adds_state_call H (StBundle cid' b w r) (state_after H history) s (Ok tt)) as (_ & _ & K & _);
        [|apply safter_wf|apply (K (SFContract cid')); [reflexivity|exact Hk]].
      simpl. unfold update_from_bundle. unfold bind at 1, get. destruct Eh as [x Eh].
      assert (Hh : mhas cid' (ms_contracts (state_after H history)) = true) by (apply mhas_true; rewrite Ea; simpl; eauto).
      rewrite Hh. exact E.
    - destruct Hi. }
  apply call_again; try assumption.
  - intros cid ow o Hi. destruct (Hcid _ _ _ Hi) as [cs Ec]. exists cs. split; [exact Ec|].
    split; [|split].
    + apply (needs_call H c _ _ _ E cid ow o Hi).
    + intros k a Hr. destruct (HG (SFOut cid k a)) as (b & [B1 B2] & cs' & Ec' & Hg); [simpl; eauto|].
      rewrite Ec in Ec'. apply Some_inj in Ec'. subst cs'. rewrite <- B1, <- B2. eauto.
    + intros ty vals Hin. destruct (HG (SFLimit cid ty 0)) as (l & cs' & g & Ec' & Eg & _); [simpl; eauto|].
      rewrite Ec in Ec'. apply Some_inj in Ec'. subst cs'. exists g. split; [exact Eg|].
      intros no d Hn. set (go := {| go_op := op_id H o; go_nonce := op_nonce o; go_index := N.of_nat no; go_witness := ow |}).
      assert (Hsh : shows H o ow ty go d) by (exists vals, no; auto).
      destruct (HG (SFGlobal cid ty go d)) as (d' & Hs); [simpl; eauto|].
      destruct (HSound _ Hs) as (c' & Hc' & ow' & o' & Hi' & Hsh').
      assert (d' = d).
      { eapply (shows_fun H o' o); [exact HC| | |exact Hsh'|exact Hsh].
        - apply (HS c' cid ow' o' Hc' Hi').
        - apply (HS c cid ow o (or_introl eq_refl) Hi). }
      subst d'. destruct Hs as (cs' & g' & Ec' & Eg' & Hd). rewrite Ec in Ec'. apply Some_inj in Ec'. subst cs'.
      rewrite Eg in Eg'. apply Some_inj in Eg'. subst g'. exact Hd.
  - intros r [[c' ->]|(cid & b & w' & ->)] w Hw.
    + eapply wsets_consignment; eauto.
    + eapply wsets_bundle; eauto.
  - intros cid b w r ->. cbn [state_call] in E. unfold update_from_bundle in E. unfold bind at 1, get in E.
    destruct (mhas cid (ms_contracts (state_after H history))) eqn:Eh; [|discriminate].
    assert (Hk : sstates (state_after H history) (SFContract cid)) by (apply mhas_true, Eh).
    destruct (adds_state_call H (StBundle cid b w r) (state_after H history) s (Ok tt)) as (_ & _ & K & _);
        [|apply safter_wf|apply (K (SFContract cid)); [reflexivity|exact Hk]].
    simpl. unfold update_from_bundle. unfold bind at 1, get. rewrite Eh. exact E.
  - intros r after ->. simpl in E. unfold bind, ret in E.
    simpl. unfold bind, ret.
    assert (Ef : s = fst (update_witnesses r after (state_after H history))).
    { unfold update_witnesses in *. simpl in *. congruence. }
    rewrite Ef. exact (update_again r after _ (safter_wf H history)).
Qed.

End StateProofs.
