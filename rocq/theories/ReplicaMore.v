(** * Proofs about stocks to which the same was brought in another order: witnesses, exports *)
From Verif Require Import Base StM Core ContainerModel ContainerSpec ContainerProofs PIndexModel PIndexSpec PIndexProofs.
From Verif Require Import MergeSpec MergeProofs StateModel StateSpec StashModel StashSpec StashProofs StashAgain StockModel StockAgain StockProofs.
From Verif Require Import SupplySpec FasciaProps LedgerSpec LedgerProofs AgreeSpec AgreeProofs ConsignModel ConsignAccept ReplicaSpec ReplicaProofs.
Local Open Scope N_scope.

(** ** Merging witnesses *)

Definition full_tx (p : XPubWitness) : Prop := pw_tx (xw_pub p) <> None.

Lemma merge_xpub_either a b r : merge_xpub a b = Ok r -> witness_id r = witness_id a /\ (r = a \/ r = b) /\ (full_tx a \/ full_tx b -> full_tx r).
Proof.
  intros E. destruct (merge_xpub_id a b r E) as [Ei _]. split; [exact Ei|]. destruct a as [la pa], b as [lb pb]. unfold merge_xpub in E. cbn [xw_layer xw_pub] in E.
  assert (P : forall l, rmap (fun p => {| xw_layer := l; xw_pub := p |}) (merge_pub pa pb) = Ok r -> exists p, merge_pub pa pb = Ok p /\ r = {| xw_layer := l; xw_pub := p |}).
  { intros l. destruct (merge_pub pa pb); cbn; try discriminate. intros X. apply Ok_inj in X. eauto. }
  assert (Q : forall p, merge_pub pa pb = Ok p -> (p = pa \/ p = pb) /\ (pw_tx pa <> None \/ pw_tx pb <> None -> pw_tx p <> None)).
  { intros p. destruct pa as [t|t], pb as [t'|t']; cbn [merge_pub]; try discriminate; destruct (_ =? _); try discriminate; intros X; apply Ok_inj in X; subst p; cbn; split; auto; intros [X|X]; congruence. }
  destruct la, lb; try discriminate; apply P in E as (p & Ep & ->); destruct (Q p Ep) as [[->| ->] F]; split; auto.
Qed.

(** The anchor of a method after merging: that of one of the two, or both joined. *)
Definition joint (x y r : option Anchor) : Prop :=
  match x, y with
  | None, _ => r = y
  | Some a, None => r = x
  | Some a, Some b => exists c, r = Some c /\ (merge_anchor a b = Ok c \/ merge_anchor b a = Ok c)
  end.
Lemma merge_anchors_joint a b r mt : merge_anchors a b = Ok r -> joint (of_method mt a) (of_method mt b) (of_method mt r).
Proof.
  intros E. destruct a as [x|x|x x2], b as [y|y|y y2]; cbn [merge_anchors] in E; destruct mt; cbn [of_method tapret_of opret_of joint];
    repeat match type of E with
    | context [merge_anchor ?u ?v] => let M := fresh "M" in destruct (merge_anchor u v) eqn:M; cbn [rmap rbind] in E; try discriminate
    end; apply Ok_inj in E; subst r; cbn [of_method tapret_of opret_of joint]; eauto.
Qed.

Lemma joined_anchor a b c : merge_anchor a b = Ok c \/ merge_anchor b a = Ok c ->
  an_root c = an_root a /\ an_dbc c = an_dbc a /\ an_root c = an_root b /\ an_dbc c = an_dbc b /\
  (forall k v, mget k (an_known c) = Some v -> mget k (an_known a) = Some v \/ mget k (an_known b) = Some v) /\
  (forall k, mget k (an_known a) <> None \/ mget k (an_known b) <> None -> mget k (an_known c) <> None) /\
  (msorted (an_known a) -> msorted (an_known b) -> msorted (an_known c)).
Proof.
  assert (P : forall a b, merge_anchor a b = Ok c ->
    an_root c = an_root a /\ an_dbc c = an_dbc a /\ an_root c = an_root b /\ an_dbc c = an_dbc b /\
    (forall k v, mget k (an_known c) = Some v -> mget k (an_known a) = Some v \/ mget k (an_known b) = Some v) /\
    (forall k, mget k (an_known a) <> None \/ mget k (an_known b) <> None -> mget k (an_known c) <> None) /\
    (msorted (an_known a) -> msorted (an_known b) -> msorted (an_known c))).
  { clear a b. intros a b. unfold merge_anchor. destruct (N.eqb_spec (an_dbc a) (an_dbc b)); cbn [negb]; [|discriminate].
    destruct (N.eqb_spec (an_root a) (an_root b)); cbn [negb]; [|discriminate]. intros E. apply Ok_inj in E. subst c. cbn [an_root an_dbc an_known].
    do 4 (split; [congruence|]). split; [|split].
    - intros k v. rewrite known_union_get. destruct (mget k (an_known a)); auto.
    - intros k. rewrite known_union_get. destruct (mget k (an_known a)); [discriminate|]. intros [X|X]; congruence.
    - intros S _. apply known_union_sorted, S. }
  intros [E|E]; [apply P, E|]. apply P in E as (A & B & C & D & F & G & I). do 4 (split; [assumption|]). split; [|split].
  - intros k v X. destruct (F k v X); auto.
  - intros k X. apply G. tauto.
  - auto.
Qed.

(** ** What is stored of a witness after it came several times *)

Definition put_witness (w : SealWitness) (m m' : omap WitnessId SealWitness) : Prop :=
  match mget (sw_id w) m with
  | None => m' = minsert (sw_id w) w m
  | Some old => exists p a, merge_xpub (sw_public old) (sw_public w) = Ok p /\ merge_anchors (sw_anchors old) (sw_anchors w) = Ok a /\
      m' = minsert (witness_id p) {| sw_public := p; sw_anchors := a |} m
  end.
Fixpoint put_all (l : list SealWitness) (m m' : omap WitnessId SealWitness) : Prop :=
  match l with
  | [] => m' = m
  | w :: l => exists m1, put_witness w m m1 /\ put_all l m1 m'
  end.

Lemma put_all_app l l' m m1 m2 : put_all l m m1 -> put_all l' m1 m2 -> put_all (l ++ l') m m2.
Proof.
  revert m. induction l as [|w l IH]; intros m P Q; [cbn in P; subst m1; exact Q|].
  destruct P as (x & P1 & P2). exists x. split; [exact P1|exact (IH _ P2 Q)].
Qed.

(** The witness [x] is the least which has all of what the witnesses [ws] have. *)
Record sums (ws : SealWitness -> Prop) (x : SealWitness) : Prop := {
  su_pub : exists w, ws w /\ sw_public w = sw_public x;
  su_full : forall w, ws w -> full_tx (sw_public w) -> full_tx (sw_public x);
  su_from : forall mt an, of_method mt (sw_anchors x) = Some an -> exists w an', ws w /\ of_method mt (sw_anchors w) = Some an';
  su_into : forall mt w an, ws w -> of_method mt (sw_anchors w) = Some an -> exists an', of_method mt (sw_anchors x) = Some an' /\
    an_root an' = an_root an /\ an_dbc an' = an_dbc an /\ forall k, mget k (an_known an) <> None -> mget k (an_known an') <> None;
  su_known : forall mt an k v, of_method mt (sw_anchors x) = Some an -> mget k (an_known an) = Some v ->
    exists w an', ws w /\ of_method mt (sw_anchors w) = Some an' /\ mget k (an_known an') = Some v;
  su_sorted : forall mt an, of_method mt (sw_anchors x) = Some an -> msorted (an_known an)
}.

Definition wit_sorted (w : SealWitness) : Prop := forall mt an, of_method mt (sw_anchors w) = Some an -> msorted (an_known an).

Lemma sums_one w (P : SealWitness -> Prop) : (forall x, P x <-> x = w) -> wit_sorted w -> sums P w.
Proof.
  intros E S. constructor.
  - exists w. split; [apply E|]; reflexivity.
  - intros x Hx. apply E in Hx. subst x. auto.
  - intros mt an Ha. exists w, an. split; [apply E; reflexivity|exact Ha].
  - intros mt x an Hx Ha. apply E in Hx. subst x. exists an. auto.
  - intros mt an k v Ha Hk. exists w, an. split; [apply E; reflexivity|auto].
  - exact S.
Qed.

Lemma sums_merge (P Q : SealWitness -> Prop) x w p a : sums P x -> wit_sorted w -> (forall y, Q y <-> P y \/ y = w) ->
  merge_xpub (sw_public x) (sw_public w) = Ok p -> merge_anchors (sw_anchors x) (sw_anchors w) = Ok a ->
  sums Q {| sw_public := p; sw_anchors := a |}.
Proof.
  intros [S1 S2 S3 S4 S5 S6] Sw Hq Ep Ea. destruct (merge_xpub_either _ _ _ Ep) as (_ & Ei & Ef).
  assert (J : forall mt, joint (of_method mt (sw_anchors x)) (of_method mt (sw_anchors w)) (of_method mt a)) by (intros mt; exact (merge_anchors_joint _ _ _ mt Ea)).
  assert (Qw : Q w) by (apply Hq; auto).
  constructor; cbn [sw_public sw_anchors].
  - destruct Ei as [->| ->]; [|exists w; auto]. destruct S1 as (y & Py & Ey). exists y. split; [apply Hq; auto|exact Ey].
  - intros y Hy F. apply Hq in Hy as [Hy| ->]; apply Ef; [left; exact (S2 y Hy F)|right; exact F].
  - intros mt an E. specialize (J mt). destruct (of_method mt (sw_anchors x)) as [ax|] eqn:Ex.
    + destruct (S3 mt ax Ex) as (y & ay & Py & Ey). exists y, ay. split; [apply Hq; auto|exact Ey].
    + cbn [joint] in J. exists w, an. split; [exact Qw|congruence].
  - intros mt y an Hy E. specialize (J mt). apply Hq in Hy as [Hy| ->].
    + destruct (S4 mt y an Hy E) as (ax & Ex & R1 & R2 & R3). rewrite Ex in J. cbn [joint] in J.
      destruct (of_method mt (sw_anchors w)) as [aw|] eqn:Ew; [|rewrite J; exists ax; auto].
      destruct J as (c & Ec & M). destruct (joined_anchor _ _ _ M) as (A & B & _ & _ & _ & G & _). exists c. split; [exact Ec|].
      split; [congruence|]. split; [congruence|]. intros k Hk. apply G. left. apply R3, Hk.
    + rewrite E in J. destruct (of_method mt (sw_anchors x)) as [ax|] eqn:Ex; cbn [joint] in J; [|rewrite J; exists an; auto].
      destruct J as (c & Ec & M). destruct (joined_anchor _ _ _ M) as (_ & _ & A & B & _ & G & _). exists c. split; [exact Ec|].
      split; [exact A|]. split; [exact B|]. intros k Hk. apply G. right. exact Hk.
  - intros mt an k v E Hk. specialize (J mt). destruct (of_method mt (sw_anchors x)) as [ax|] eqn:Ex.
    + assert (Px : mget k (an_known ax) = Some v -> exists w0 an', Q w0 /\ of_method mt (sw_anchors w0) = Some an' /\ mget k (an_known an') = Some v).
      { intros X. destruct (S5 mt ax k v Ex X) as (y & ay & Py & Ey & Ky). exists y, ay. split; [apply Hq; auto|auto]. }
      cbn [joint] in J. destruct (of_method mt (sw_anchors w)) as [aw|] eqn:Ew; [|rewrite E in J; apply Some_inj in J; subst ax; auto].
      destruct J as (c & Ec & M). rewrite E in Ec. apply Some_inj in Ec. subst c. destruct (joined_anchor _ _ _ M) as (_ & _ & _ & _ & F & _).
      destruct (F k v Hk) as [X|X]; [auto|]. exists w, aw. auto.
    + cbn [joint] in J. exists w, an. split; [exact Qw|]. split; [congruence|exact Hk].
  - intros mt an E. specialize (J mt). destruct (of_method mt (sw_anchors x)) as [ax|] eqn:Ex; cbn [joint] in J; [|apply (Sw mt); congruence].
    destruct (of_method mt (sw_anchors w)) as [aw|] eqn:Ew; [|rewrite E in J; apply Some_inj in J; subst ax; exact (S6 mt _ Ex)].
    destruct J as (c & Ec & M). rewrite E in Ec. apply Some_inj in Ec. subst c. destruct (joined_anchor _ _ _ M) as (_ & _ & _ & _ & _ & _ & S).
    apply S; [exact (S6 mt _ Ex)|exact (Sw mt _ Ew)].
Qed.

(** Nothing but what came determines it. *)
Definition coherent (ws : SealWitness -> Prop) : Prop :=
  (forall w w', ws w -> ws w' -> sw_id w = sw_id w' -> full_tx (sw_public w) -> full_tx (sw_public w') -> sw_public w = sw_public w') /\
  (forall w w' mt an an' k v v', ws w -> ws w' -> sw_id w = sw_id w' -> of_method mt (sw_anchors w) = Some an -> of_method mt (sw_anchors w') = Some an' ->
     mget k (an_known an) = Some v -> mget k (an_known an') = Some v' -> v = v').

Lemma anchors_ext a b : (forall mt, of_method mt a = of_method mt b) -> a = b.
Proof.
  intros E. pose proof (E TapretFirst) as T. pose proof (E OpretFirst) as O. destruct a, b; cbn in T, O; try discriminate; congruence.
Qed.

Lemma bare_id p p' : ~ full_tx p -> ~ full_tx p' -> witness_id p = witness_id p' -> p = p'.
Proof.
  unfold full_tx. destruct p as [l [t|t]], p' as [l' [t'|t']]; cbn; intros A B E.
  - unfold witness_id in E. cbn in E. congruence.
  - destruct B. discriminate.
  - destruct A. discriminate.
  - destruct A. discriminate.
Qed.

Lemma sums_same ws x y : coherent ws -> (forall w w', ws w -> ws w' -> sw_id w = sw_id w') -> sums ws x -> sums ws y -> x = y.
Proof.
  intros [C1 C2] Hi [X1 X2 X3 X4 X5 X6] [Y1 Y2 Y3 Y4 Y5 Y6].
  assert (A : sw_anchors x = sw_anchors y).
  { apply anchors_ext. intros mt. destruct (of_method mt (sw_anchors x)) as [a|] eqn:Ea.
    - destruct (X3 mt a Ea) as (w & aw & Hw & Ew). destruct (X4 mt w aw Hw Ew) as (a' & E' & R1 & R2 & _). rewrite Ea in E'. apply Some_inj in E'. subst a'.
      destruct (Y4 mt w aw Hw Ew) as (b & Eb & Q1 & Q2 & _). rewrite Eb. f_equal.
      assert (Kn : an_known a = an_known b).
      { apply msorted_ext; [exact (X6 mt a Ea)|exact (Y6 mt b Eb)|]. intros k.
        destruct (mget k (an_known a)) as [v|] eqn:Kv.
        - destruct (X5 mt a k v Ea Kv) as (w1 & a1 & H1 & E1 & K1). destruct (Y4 mt w1 a1 H1 E1) as (b' & Eb' & _ & _ & G). rewrite Eb in Eb'. apply Some_inj in Eb'. subst b'.
          destruct (mget k (an_known b)) as [v'|] eqn:Kv'; [|exfalso; apply (G k); congruence].
          destruct (Y5 mt b k v' Eb Kv') as (w2 & a2 & H2 & E2 & K2). f_equal. exact (C2 w1 w2 mt a1 a2 k v v' H1 H2 (Hi _ _ H1 H2) E1 E2 K1 K2).
        - destruct (mget k (an_known b)) as [v'|] eqn:Kv'; [|reflexivity].
          destruct (Y5 mt b k v' Eb Kv') as (w2 & a2 & H2 & E2 & K2). destruct (X4 mt w2 a2 H2 E2) as (a' & Ea' & _ & _ & G). rewrite Ea in Ea'. apply Some_inj in Ea'. subst a'.
          exfalso. apply (G k); congruence. }
      destruct a, b. cbn in *. congruence.
    - destruct (of_method mt (sw_anchors y)) as [b|] eqn:Eb; [|reflexivity]. destruct (Y3 mt b Eb) as (w & aw & Hw & Ew).
      destruct (X4 mt w aw Hw Ew) as (a' & E' & _). congruence. }
  assert (P : sw_public x = sw_public y).
  { destruct X1 as (w & Hw & Ew), Y1 as (w' & Hw' & Ew'). rewrite <- Ew, <- Ew'.
    assert (Di : forall p, full_tx p \/ ~ full_tx p).
    { intros p. unfold full_tx. destruct (pw_tx (xw_pub p)); [left; discriminate|right; auto]. }
    destruct (Di (sw_public w)) as [F|F].
    - assert (F' : full_tx (sw_public w')) by (rewrite Ew'; exact (Y2 w Hw F)). exact (C1 w w' Hw Hw' (Hi _ _ Hw Hw') F F').
    - apply bare_id; [exact F| |exact (Hi _ _ Hw Hw')]. intros F'. apply F. rewrite Ew. exact (X2 w' Hw' F'). }
  destruct x, y. cbn in *. congruence.
Qed.

(** The stored witnesses, from those which came *)
Definition wit_inv (ws : list SealWitness) (m : omap WitnessId SealWitness) : Prop :=
  (forall w, In w ws -> mget (sw_id w) m <> None) /\
  forall id x, mget id m = Some x -> sw_id x = id /\ sums (fun w => In w ws /\ sw_id w = id) x.

Lemma put_inv ws w m m' : wit_inv ws m -> wit_sorted w -> put_witness w m m' -> wit_inv (ws ++ [w]) m'.
Proof.
  intros [A B] Sw P. unfold put_witness in P.
  assert (Hin : forall y, In y (ws ++ [w]) <-> In y ws \/ y = w).
  { intros y. rewrite in_app_iff. cbn. split; intros [X|X]; auto; destruct X as [X|[]]; auto. }
  destruct (mget (sw_id w) m) as [old|] eqn:Eo.
  - destruct P as (p & a & Ep & Ea & ->). destruct (B _ _ Eo) as [Ei So].
    destruct (merge_xpub_either _ _ _ Ep) as (Ew & _). assert (Ew' : witness_id p = sw_id w) by (rewrite Ew; exact Ei). rewrite Ew'.
    split.
    + intros y Hy. rewrite mget_insert. destruct (keqb (sw_id y) (sw_id w)) eqn:Ek; [discriminate|].
      apply Hin in Hy as [Hy| ->]; [exact (A y Hy)|]. rewrite keqb_refl in Ek. discriminate.
    + intros id x. rewrite mget_insert. destruct (keqb id (sw_id w)) eqn:Ek.
      * apply keqb_true in Ek. subst id. intros X. apply Some_inj in X. subst x. split; [exact Ew'|].
        refine (sums_merge _ _ old w p a So Sw _ Ep Ea). intros y. rewrite Hin. split; [intros [[X| ->] E]; auto|intros [[X E]| ->]; auto].
      * intros X. destruct (B _ _ X) as [Ex [S1 S2 S3 S4 S5 S6]]. split; [exact Ex|].
        assert (Q : forall y, In y (ws ++ [w]) /\ sw_id y = id <-> In y ws /\ sw_id y = id).
        { intros y. rewrite Hin. split; [|tauto]. intros [[Hy| ->] E]; [auto|]. rewrite E, keqb_refl in Ek. discriminate. }
        constructor.
        -- destruct S1 as (y & Hy & Ey). exists y. split; [apply Q, Hy|exact Ey].
        -- intros y Hy. apply S2, Q, Hy.
        -- intros mt an E. destruct (S3 mt an E) as (y & ay & Hy & Ey). exists y, ay. split; [apply Q, Hy|exact Ey].
        -- intros mt y an Hy. apply S4, Q, Hy.
        -- intros mt an k v E Hk. destruct (S5 mt an k v E Hk) as (y & ay & Hy & Ey). exists y, ay. split; [apply Q, Hy|exact Ey].
        -- exact S6.
  - subst m'. split.
    + intros y Hy. rewrite mget_insert. destruct (keqb (sw_id y) (sw_id w)) eqn:Ek; [discriminate|].
      apply Hin in Hy as [Hy| ->]; [exact (A y Hy)|]. rewrite keqb_refl in Ek. discriminate.
    + intros id x. rewrite mget_insert. destruct (keqb id (sw_id w)) eqn:Ek.
      * apply keqb_true in Ek. subst id. intros X. apply Some_inj in X. subst x. split; [reflexivity|].
        apply sums_one; [|exact Sw]. intros y. rewrite Hin. split; [|intros ->; auto].
        intros [[Hy|Hy] E]; [|exact Hy]. exfalso. apply (A y Hy). rewrite E. exact Eo.
      * intros X. destruct (B _ _ X) as [Ex [S1 S2 S3 S4 S5 S6]]. split; [exact Ex|].
        assert (Q : forall y, In y (ws ++ [w]) /\ sw_id y = id <-> In y ws /\ sw_id y = id).
        { intros y. rewrite Hin. split; [|tauto]. intros [[Hy| ->] E]; [auto|]. rewrite E, keqb_refl in Ek. discriminate. }
        constructor.
        -- destruct S1 as (y & Hy & Ey). exists y. split; [apply Q, Hy|exact Ey].
        -- intros y Hy. apply S2, Q, Hy.
        -- intros mt an E. destruct (S3 mt an E) as (y & ay & Hy & Ey). exists y, ay. split; [apply Q, Hy|exact Ey].
        -- intros mt y an Hy. apply S4, Q, Hy.
        -- intros mt an k v E Hk. destruct (S5 mt an k v E Hk) as (y & ay & Hy & Ey). exists y, ay. split; [apply Q, Hy|exact Ey].
        -- exact S6.
Qed.

Lemma put_all_inv l : forall ws m m', wit_inv ws m -> (forall w, In w l -> wit_sorted w) -> put_all l m m' -> wit_inv (ws ++ l) m'.
Proof.
  induction l as [|w l IH]; intros ws m m' I S P.
  - cbn in P. subst m'. rewrite app_nil_r. exact I.
  - destruct P as (m1 & P1 & P2). replace (ws ++ w :: l) with ((ws ++ [w]) ++ l) by (rewrite <- app_assoc; reflexivity).
    apply (IH _ m1); [|intros x Hx; apply S; right; exact Hx|exact P2].
    eapply put_inv; [exact I|apply S; left; reflexivity|exact P1].
Qed.

Lemma same_puts l l' m m' : (forall w, In w l <-> In w l') -> (forall w, In w l -> wit_sorted w) -> coherent (fun w => In w l) ->
  put_all l [] m -> put_all l' [] m' -> forall id, mget id m = mget id m'.
Proof.
  intros Hs S C P P'.
  assert (I0 : wit_inv [] []) by (split; [intros w []|discriminate]).
  assert (I : wit_inv l m) by exact (put_all_inv l [] [] m I0 S P).
  assert (I' : wit_inv l' m') by (apply (put_all_inv l' [] [] m' I0); [intros w Hw; apply S, Hs, Hw|exact P']).
  destruct I as [A B], I' as [A' B']. intros id.
  assert (N0 : forall l m, (forall w, In w l -> mget (sw_id w) m <> None) -> (forall id x, mget id m = Some x -> sw_id x = id /\ sums (fun w => In w l /\ sw_id w = id) x) ->
    mget id m <> None <-> exists w, In w l /\ sw_id w = id).
  { clear. intros l m A B. split.
    - intros X. destruct (mget id m) as [x|] eqn:E; [|congruence]. destruct (B _ _ E) as [_ [(w & [Hw Ew] & _)]]. eauto.
    - intros (w & Hw & <-). exact (A w Hw). }
  pose proof (N0 l m A B) as Q. pose proof (N0 l' m' A' B') as Q'.
  assert (QQ : mget id m <> None <-> mget id m' <> None).
  { rewrite Q, Q'. split; intros (w & Hw & E); exists w; (split; [apply Hs, Hw|exact E]). }
  destruct (mget id m) as [x|] eqn:E, (mget id m') as [y|] eqn:E'.
  - f_equal. destruct (B _ _ E) as [_ Sx], (B' _ _ E') as [_ [S1 S2 S3 S4 S5 S6]].
    refine (sums_same (fun w => In w l /\ sw_id w = id) x y _ _ Sx _).
    + destruct C as [C1 C2]. split.
      * intros w w' [Hw _] [Hw' _]. exact (C1 w w' Hw Hw').
      * intros w w' mt an an' k v v' [Hw _] [Hw' _]. exact (C2 w w' mt an an' k v v' Hw Hw').
    + intros w w' [_ X] [_ X']. congruence.
    + assert (R : forall w, In w l /\ sw_id w = id <-> In w l' /\ sw_id w = id) by (intros w; rewrite Hs; tauto). constructor.
      * destruct S1 as (z & Hz & Ez). exists z. split; [apply R, Hz|exact Ez].
      * intros z Hz. apply S2, R, Hz.
      * intros mt an X. destruct (S3 mt an X) as (z & az & Hz & Ez). exists z, az. split; [apply R, Hz|exact Ez].
      * intros mt z an Hz. apply S4, R, Hz.
      * intros mt an k v X Hk. destruct (S5 mt an k v X Hk) as (z & az & Hz & Ez). exists z, az. split; [apply R, Hz|exact Ez].
      * exact S6.
  - exfalso. apply (proj1 QQ); [discriminate|reflexivity].
  - exfalso. apply (proj2 QQ); [discriminate|reflexivity].
  - reflexivity.
Qed.

(** ** Which witnesses the calls bring *)

Section Puts.
Context (H : Hashes) (K : Merkle).

Definition wb_put (cid : N) (wb : WitnessBundle) (w : SealWitness) : Prop :=
  exists r a, anchor_vals H K cid (anchored_iter (wb_bundles wb)) = Some r /\ (forall s, anchors_of r s = (s, Ok a)) /\
    w = {| sw_public := wb_witness wb; sw_anchors := a |}.
Definition sh_puts (x : StashCall) (w : SealWitness) : Prop :=
  match x with
  | ShConsignment c => exists wb, In wb (c_bundles c) /\ wb_put (contract_id H (c_genesis c)) wb w
  | ShWitness w' => w = w'
  | _ => False
  end.

Lemma consume_witness_puts w s s' b : consume_witness w s = (s', Ok b) -> put_witness w (st_witnesses s) (st_witnesses s').
Proof.
  unfold consume_witness, put_witness, bind, get. destruct (mget (sw_id w) (st_witnesses s)) as [old|].
  - unfold lift. destruct (merge_xpub _ _) as [p|e|]; cbn [rmap_err]; try discriminate. destruct (merge_anchors _ _) as [a|e|]; cbn [rmap_err]; try discriminate.
    unfold ret, replace_witness, bind, get, grown, lift, put. destruct (cinsert _ _ _ _) as [m|] eqn:Ec; cbn [ok_or]; try discriminate.
    intros E. injection E as <- _. exists p, a. split; [reflexivity|]. split; [reflexivity|]. apply cinsert_inv in Ec. exact (proj1 Ec).
  - unfold ret, replace_witness, bind, get, grown, lift, put. destruct (cinsert _ _ _ _) as [m|] eqn:Ec; cbn [ok_or]; try discriminate.
    intros E. injection E as <- _. apply cinsert_inv in Ec. exact (proj1 Ec).
Qed.

Lemma wb_puts cid wb s s' : consume_witness_bundle H K cid wb s = (s', Ok tt) ->
  exists w, wb_put cid wb w /\ (forall w', wb_put cid wb w' -> w' = w) /\ put_witness w (st_witnesses s) (st_witnesses s').
Proof.
  unfold consume_witness_bundle, bind. destruct (anchor_all H K cid _ s) as [s1 [r|e|]] eqn:E1; try discriminate.
  destruct (anchors_of r s1) as [s2 [a|e|]] eqn:E2; try discriminate. destruct (anchors_of_pure r s1 s2 a E2) as [-> Pa].
  destruct (consume_witness _ s1) as [s3 [b|e|]] eqn:E3; try discriminate. unfold ret. intros E. injection E as <-.
  pose proof (anchor_all_vals H K cid _ _ _ _ E1) as Ev. apply anchor_all_witnesses in E1. apply consume_witness_puts in E3. rewrite E1 in E3.
  eexists. split; [exists r, a; split; [exact Ev|split; [exact Pa|reflexivity]]|]. split; [|exact E3].
  intros w' (r' & a' & Ev' & Pa' & ->). rewrite Ev in Ev'. apply Some_inj in Ev'. subst r'. f_equal.
  specialize (Pa s1). specialize (Pa' s1). rewrite Pa in Pa'. congruence.
Qed.

Lemma wbs_puts cid l : forall s s', mfor (consume_witness_bundle H K cid) l s = (s', Ok tt) ->
  exists ws, (forall w, In w ws <-> exists wb, In wb l /\ wb_put cid wb w) /\ put_all ws (st_witnesses s) (st_witnesses s').
Proof.
  induction l as [|wb l IH]; intros s s' E; cbn [mfor] in E.
  - unfold ret in E. injection E as <-. exists []. split; [|reflexivity]. intros w. split; [intros []|intros (wb & [] & _)].
  - unfold bind in E. destruct (consume_witness_bundle H K cid wb s) as [s1 [[]|e|]] eqn:E1; try discriminate.
    destruct (wb_puts cid wb s s1 E1) as (w & Hw & Hu & P). destruct (IH s1 s' E) as (ws & Hws & Ps). exists (w :: ws). split; [|exists (st_witnesses s1); auto].
    intros y. cbn [In]. rewrite Hws. split.
    + intros [<-|(b & Hb & Hy)]; [exists wb; auto|exists b; auto].
    + intros (b & [<-|Hb] & Hy); [left; symmetry; exact (Hu y Hy)|right; exists b; auto].
Qed.

Lemma genesis_witnesses g s s' r : consume_genesis H g s = (s', r) -> st_witnesses s' = st_witnesses s.
Proof.
  unfold consume_genesis, bind, get. destruct (mget _ _) as [old|].
  - unfold lift. destruct (merge_op H old g); cbn [rmap_err]; [|intros E; injection E as <- _; reflexivity|intros E; injection E as <- _; reflexivity].
    unfold replace_genesis, bind, get, grown, lift, put, ret. destruct (cinsert _ _ _ _); cbn [ok_or]; intros E; injection E as <- _; reflexivity.
  - unfold ret, replace_genesis, bind, get, grown, lift, put, ret. destruct (cinsert _ _ _ _); cbn [ok_or]; intros E; injection E as <- _; reflexivity.
Qed.
Lemma extension_witnesses g s s' r : consume_extension H g s = (s', r) -> st_witnesses s' = st_witnesses s.
Proof.
  unfold consume_extension, bind, get. destruct (mget _ _) as [old|].
  - unfold lift. destruct (merge_op H old g); cbn [rmap_err]; [|intros E; injection E as <- _; reflexivity|intros E; injection E as <- _; reflexivity].
    unfold replace_extension, bind, get, grown, lift, put, ret. destruct (cinsert _ _ _ _); cbn [ok_or]; intros E; injection E as <- _; reflexivity.
  - unfold ret, replace_extension, bind, get, grown, lift, put, ret. destruct (cinsert _ _ _ _); cbn [ok_or]; intros E; injection E as <- _; reflexivity.
Qed.
Lemma mfor_witnesses {A} (f : A -> STM unit) l : (forall a s s' r, f a s = (s', r) -> st_witnesses s' = st_witnesses s) ->
  forall s s' r, mfor f l s = (s', r) -> st_witnesses s' = st_witnesses s.
Proof.
  intros F. induction l as [|a l IH]; intros s s' r E; cbn [mfor] in E; [injection E as <- _; reflexivity|].
  unfold bind in E. destruct (f a s) as [s1 [x|e|]] eqn:E1; apply F in E1.
  - apply IH in E. congruence.
  - injection E as <- _. exact E1.
  - injection E as <- _. exact E1.
Qed.

Lemma call_puts x s : snd (stash_call H K x s) = Ok tt ->
  exists ws, (forall w, In w ws <-> sh_puts x w) /\ put_all ws (st_witnesses s) (st_witnesses (fst (stash_call H K x s))).
Proof.
  intros E. destruct x as [c|k|w|b|y|id lv]; cbn [stash_call] in *.
  - destruct (consume_consignment H K c s) as [s' r] eqn:Ec. cbn [fst snd] in *. subst r. unfold consume_consignment in Ec. cbv zeta in Ec.
    unfold bind at 1 in Ec. destruct (consume_genesis H _ s) as [sa [ua|e|]] eqn:Ea; try discriminate. apply genesis_witnesses in Ea.
    unfold bind at 1 in Ec. destruct (mfor (consume_extension H) _ sa) as [sb [ub|e|]] eqn:Eb; try discriminate.
    apply (mfor_witnesses _ _ extension_witnesses) in Eb.
    unfold bind at 1 in Ec. destruct (mfor (consume_witness_bundle H K _) _ sb) as [sc [[]|e|]] eqn:Ew; try discriminate.
    apply wbs_puts in Ew as (ws & Hws & P).
    unfold bind at 1 in Ec. destruct (mfor _ (c_attachments c) sc) as [sd [ud|e|]] eqn:Ed; try discriminate.
    apply (mfor_witnesses _ (c_attachments c)) in Ed.
    2:{ intros p t t' r. unfold replace_attachment, bind, get, grown, lift, put, ret. destruct (cinsert _ _ _ _); cbn [ok_or]; intros X; injection X as <- _; reflexivity. }
    destruct (kit_success _ _ _ Ec) as [I _]. destruct (ki_rest _ _ _ I) as (_ & _ & _ & Q & _).
    exists ws. split; [exact Hws|]. rewrite Q, Ed. rewrite <- Ea, <- Eb. exact P.
  - destruct (consume_kit k s) as [s' r] eqn:Ec. cbn [fst snd] in *. subst r. destruct (kit_success _ _ _ Ec) as [I _]. destruct (ki_rest _ _ _ I) as (_ & _ & _ & Q & _).
    exists []. split; [intros w; split; intros []|]. cbn. exact Q.
  - unfold bind, ret in *. destruct (consume_witness w s) as [s1 [z|e|]] eqn:Eb; cbn [fst snd] in *; try discriminate.
    exists [w]. split; [intros y; cbn; split; [intros [<-|[]]; reflexivity|auto]|]. apply consume_witness_puts in Eb. exists (st_witnesses s1). split; [exact Eb|reflexivity].
  - unfold bind, ret in *. destruct (consume_bundle H b s) as [s1 [z|e|]] eqn:Eb; cbn [fst snd] in *; try discriminate.
    exists []. split; [intros w; split; intros []|]. cbn. exact (consume_bundle_witnesses H b s s1 _ Eb).
  - exists []. split; [intros w; split; intros []|]. cbn [put_all]. revert E.
    unfold store_secret_seal, add_secret_seal, bind, get, grown, lift, put, ret. destruct (cpush _ _ _); cbn; try discriminate; reflexivity.
  - exists []. split; [intros w; split; intros []|]. cbn [put_all]. revert E.
    unfold set_trust, bind, get, grown, lift, put. destruct (cinsert _ _ _ _); cbn; try discriminate; reflexivity.
Qed.

Lemma calls_puts l : forall s, stash_all_succeed H K s l ->
  exists ws, (forall w, In w ws <-> exists x, In x l /\ sh_puts x w) /\ put_all ws (st_witnesses s) (st_witnesses (stash_after H K s l)).
Proof.
  induction l as [|x l IH]; intros s Su.
  - exists []. split; [|reflexivity]. intros w. split; [intros []|intros (x & [] & _)].
  - destruct Su as [E Su]. destruct (call_puts x s E) as (w1 & H1 & P1). destruct (IH _ Su) as (w2 & H2 & P2).
    exists (w1 ++ w2). split; [|exact (put_all_app _ _ _ _ _ P1 P2)]. intros w. rewrite in_app_iff, H1, H2. split.
    + intros [Hw|(y & Hy & Hw)]; [exists x|exists y]; cbn; auto.
    + intros (y & [<-|Hy] & Hw); [left; exact Hw|right; exists y; auto].
Qed.
End Puts.

(** ** For stocks *)

Section Stocks.
Context {OG : OrdKey GlobalOut} (H : Hashes) (HC : collision_free H) (K : Merkle).

Lemma anchors_of_from r a mt an : (forall s, anchors_of r s = (s, Ok a)) -> of_method mt a = Some an -> In (mt, an) r.
Proof.
  intros E. specialize (E st_empty). unfold anchors_of in E. intros Em. apply in_rev.
  destruct (rev r) as [|[[] x] [|[[] y] q]]; unfold ret, panic in E; try discriminate; injection E as <-; destruct mt; cbn in Em; try discriminate;
    apply Some_inj in Em; subst an; cbn; auto.
Qed.

Lemma anchor_vals_from cid l : forall r mt an, anchor_vals H K cid l = Some r -> In (mt, an) r ->
  exists p, In p l /\ mt = dp_method (ea_dbc (fst p)) /\ an_known an = [(cid, bundle_id H (snd p))].
Proof.
  induction l as [|p l IH]; intros r mt an E Hr; cbn [anchor_vals] in E.
  - apply Some_inj in E. subst r. destruct Hr.
  - destruct (mk_with _ _ _ _) as [root|]; [|discriminate]. destruct (anchor_vals H K cid l) as [r'|] eqn:Er; [|discriminate].
    apply Some_inj in E. subst r. destruct Hr as [X|Hr].
    + injection X as <- <-. exists p. cbn. auto.
    + destruct (IH r' mt an eq_refl Hr) as (q & Hq & R). exists q. cbn. auto.
Qed.

(** What the witnesses of a call are made of *)
Lemma stash_of_witness c s x w l : ledger_call_ok H c -> In c l -> (forall f r, In (SkFascia f r) l -> anchor_wf (fa_anchor f)) ->
  stash_of H c s x -> sh_puts H K x w ->
  wit_sorted w /\ brings_tx l (sw_public w) /\
  forall mt an k v, of_method mt (sw_anchors w) = Some an -> mget k (an_known an) = Some v -> brings_message H l (sw_id w) mt k v.
Proof.
  intros [Ok Mo] Hc Wf E Hw. destruct c as [c r|f r|k|y|r after|]; cbn [stash_of] in E; try contradiction.
  - destruct E as (c' & Er & ->). destruct Hw as (wb' & Hb' & rr & a & Ev & Pa & ->). destruct Mo as [Mt Mo].
    unfold resolve_secrets in Er. destruct (reveal_terminal_seals_ok H _ c c' HC Mt Mo Er) as [Ec F]. destruct (Forall2_r _ _ _ _ F Hb') as (wb & Hb & W1 & W2).
    assert (Eg : c_genesis c' = c_genesis c) by (rewrite Ec; reflexivity). rewrite Eg in Ev.
    assert (Kn : forall mt an, of_method mt a = Some an -> exists p, In p (anchored_iter (wb_bundles wb')) /\ mt = dp_method (ea_dbc (fst p)) /\ an_known an = [(contract_id H (c_genesis c), bundle_id H (snd p))]).
    { intros mt an Em. exact (anchor_vals_from _ _ _ mt an Ev (anchors_of_from _ _ mt an Pa Em)). }
    split; [|split].
    + intros mt an Em. cbn [sw_anchors] in Em. destruct (Kn mt an Em) as (p & _ & _ & ->). repeat constructor.
    + left. exists c, r, wb. cbn [sw_public]. auto.
    + intros mt an k v Em Hk. cbn [sw_anchors] in Em. destruct (Kn mt an Em) as (p & Hp & -> & Ek). rewrite Ek in Hk. cbn [mget] in Hk.
      destruct (keqb k _) eqn:Kk; [|discriminate]. apply keqb_true in Kk. subst k. apply Some_inj in Hk. subst v.
      assert (Rv : forall t t' : Bundle, terminal_revealed H (fun secret => Base.Ok (seal_secret H (sk_stash s) secret) : result StashError _) (c_terminals c) t t' -> bundle_id H t' = bundle_id H t).
      { intros t t'. unfold terminal_revealed. destruct (mget _ _); [|intros ->; reflexivity]. destruct (seal_secret _ _ _); intros ->; reflexivity. }
      left. exists c, r. unfold sw_id. cbn [sw_public].
      assert (Q : exists b0, carries (wb_bundles wb) (fst p) b0 /\ bundle_id H (snd p) = bundle_id H b0).
      { destruct (wb_bundles wb) as [t|t|t o], (wb_bundles wb') as [t'|t'|t' o']; cbn [anchored_rel] in W2; try contradiction; unfold client_rel in W2; cbn in Hp.
        - destruct Hp as [<-|[]]. destruct W2 as (A & B & C). exists (cb_bundle t). cbn [fst snd]. split; [|apply Rv, C].
          replace (cb_anchor t') with (cb_anchor t) by (unfold cb_anchor; congruence). constructor.
        - destruct Hp as [<-|[]]. destruct W2 as (A & B & C). exists (cb_bundle t). cbn [fst snd]. split; [|apply Rv, C].
          replace (cb_anchor t') with (cb_anchor t) by (unfold cb_anchor; congruence). constructor.
        - destruct W2 as ((A & B & C) & (D & E & F')). destruct Hp as [<-|[<-|[]]]; cbn [fst snd].
          + exists (cb_bundle t). split; [|apply Rv, C]. replace (cb_anchor t') with (cb_anchor t) by (unfold cb_anchor; congruence). constructor.
          + exists (cb_bundle o). split; [|apply Rv, F']. replace (cb_anchor o') with (cb_anchor o) by (unfold cb_anchor; congruence). constructor. }
      destruct Q as (b0 & Cb & Ib). exists (fst p), b0. split; [exact Hc|]. split; [|split; [reflexivity|split; [reflexivity|exact Ib]]].
      exists wb. split; [exact Hb|]. split; [|exact Cb]. unfold wb_id. rewrite W1. reflexivity.
  - destruct E as [->|(p & Hp & ->)]; [|destruct Hw]. cbn [sh_puts] in Hw. subst w.
    split; [|split].
    + intros mt an Em. apply (Wf f r Hc). destruct mt; cbn in Em; auto.
    + right. exists f, r. auto.
    + intros mt an k v Em Hk. right. exists f, r, an. split; [exact Hc|]. split; [reflexivity|]. split; [destruct mt; exact Em|exact Hk].
  - subst x. destruct Hw.
  - subst x. destruct Hw.
Qed.

Lemma witnesses_same l l' : (forall c, In c l -> ledger_call_ok H c) -> (forall f r, In (SkFascia f r) l -> anchor_wf (fa_anchor f)) ->
  seals_first l -> seals_first l' -> same_calls l l' -> all_calls_succeed H K sk_empty l -> all_calls_succeed H K sk_empty l' ->
  same_txs l -> one_message H l -> same_witnesses (stock_after H K sk_empty l) (stock_after H K sk_empty l').
Proof.
  intros Hok Wf F F' Hs Su Su' Tx Om. destruct (fed_history H K l F Su) as (q & _ & sh & So & Hq & _ & (A & B & C)).
  destruct (fed_history H K l' F' Su') as (q' & _ & sh' & So' & Hq' & _ & (A' & B' & C')).
  assert (q = q') as <-. { apply ssorted_ext; [exact So|exact So'|]. intros x. rewrite Hq, Hq'. apply Hs. }
  assert (Sh : forall x, In x sh <-> In x sh').
  { intros x. rewrite C, C'. split; intros (c & Hc & X); exists c; (split; [apply Hs, Hc|exact X]). }
  destruct (calls_puts H K sh _ A) as (ws & Hw & P). destruct (calls_puts H K sh' _ A') as (ws' & Hw' & P'). cbn [st_witnesses with_seals st_empty] in P, P'.
  assert (Fr : forall w, In w ws -> wit_sorted w /\ brings_tx l (sw_public w) /\
    forall mt an k v, of_method mt (sw_anchors w) = Some an -> mget k (an_known an) = Some v -> brings_message H l (sw_id w) mt k v).
  { intros w X. apply Hw in X as (x & Hx & Px). apply C in Hx as (c & Hc & _ & Sx). exact (stash_of_witness c _ x w l (Hok c Hc) Hc Wf Sx Px). }
  intros id. unfold stash_witness. rewrite B, B'. f_equal. refine (same_puts ws ws' _ _ _ _ _ P P' id).
  - intros w. rewrite Hw, Hw'. split; intros (x & Hx & Px); exists x; (split; [apply Sh, Hx|exact Px]).
  - intros w X. apply Fr, X.
  - split.
    + intros w w' X X' Ei Fw Fw'. destruct (Fr w X) as (_ & T & _), (Fr w' X') as (_ & T' & _). exact (Tx _ _ T T' Ei Fw Fw').
    + intros w w' mt an an' k v v' X X' Ei Em Em' Ek Ek'. destruct (Fr w X) as (_ & _ & M), (Fr w' X') as (_ & _ & M').
      pose proof (M mt an k v Em Ek) as M1. pose proof (M' mt an' k v' Em' Ek') as M2. rewrite <- Ei in M2. exact (Om _ _ _ _ _ M1 M2).
Qed.

(** *** What is exported *)

Lemma exports_same s s' : sk_index s = sk_index s' -> same_history s s' -> same_witnesses s s' ->
  (forall w, mget w (ms_witnesses (sk_state s)) = mget w (ms_witnesses (sk_state s'))) -> same_exports H K s s'.
Proof.
  intros Ei (Hg & _ & Hb) Hw Hst.
  assert (Sv : forall l, select_valid_witness (sk_state s) l = select_valid_witness (sk_state s') l).
  { induction l as [|w l IH]; cbn [select_valid_witness]; [reflexivity|]. unfold is_valid_witness. rewrite Hst, IH. reflexivity. }
  assert (Tr : forall id, transition s id = transition s' id).
  { intros id. unfold transition. rewrite Ei. destruct (bundle_id_for_op _ id); try reflexivity. cbn. rewrite Hb. reflexivity. }
  assert (Cb : forall bid, client_bundle K s bid = client_bundle K s' bid).
  { intros bid. unfold client_bundle. rewrite Ei. destruct (bundle_info _ bid) as [info|e|]; cbn; try reflexivity. rewrite Hb.
    destruct (stash_bundle (sk_stash s') bid); cbn; try reflexivity. rewrite Sv. destruct (select_valid_witness _ _) as [w|e|]; cbn; try reflexivity.
    rewrite Hw. reflexivity. }
  assert (Co : forall cid outs sec, collect H K s cid outs sec = collect H K s' cid outs sec).
  { intros cid outs sec. unfold collect, start_outs. rewrite Ei. destruct (public_opouts _ cid) as [a|e|]; cbn; try reflexivity.
    destruct (opouts_by_outputs _ cid _) as [b|e|]; cbn; try reflexivity. generalize (fold_left (fun acc x => sinsert x acc) (b ++ opouts_by_terminals (sk_index s') match sec with Some x => [x] | None => [] end) a).
    intros l. generalize {| cl_transitions := []; cl_terminals := []; cl_bundles := [] |}. induction l as [|o l IH]; intros acc; cbn [rfold]; [reflexivity|].
    assert (St : start_step H K s cid sec acc o = start_step H K s' cid sec acc o).
    { unfold start_step. rewrite Ei, Tr. destruct (_ =? _); [reflexivity|]. destruct (transition s' _); cbn; try reflexivity. destruct (bundle_id_for_op _ _); cbn; try reflexivity.
      rewrite Cb. reflexivity. }
    rewrite St. destruct (start_step H K s' cid sec acc o); cbn; [apply IH|reflexivity|reflexivity]. }
  assert (Wk : forall cid fuel ids m, walk H K s cid fuel ids m = walk H K s' cid fuel ids m).
  { intros cid fuel. induction fuel as [|n IH]; intros ids m; destruct ids as [|id ids]; cbn [walk]; try reflexivity. rewrite IH.
    assert (St : walk_step H K s id m = walk_step H K s' id m).
    { unfold walk_step. rewrite Ei, Tr. destruct (transition s' id); cbn; try reflexivity. destruct (bundle_id_for_op _ _); cbn; try reflexivity. rewrite Cb. reflexivity. }
    rewrite St. destruct (_ =? _); [reflexivity|]. destruct (walk_step H K s' id m) as [[ps m']|e|]; try reflexivity. apply IH. }
  intros fuel tr cid outs sec c c' E E'. unfold consign in E, E'. rewrite Co in E. destruct (collect H K s' cid outs sec) as [co|e|]; try discriminate.
  rewrite Wk in E. destruct (walk H K s' cid fuel _ _) as [[m|e|]|]; try discriminate. apply Some_inj in E. apply Some_inj in E'.
  assert (Gr : forall l acc, rfold (group_step K H s) acc l = rfold (group_step K H s') acc l).
  { induction l as [|b l IH]; intros acc; cbn [rfold]; [reflexivity|].
    assert (St : group_step K H s acc b = group_step K H s' acc b).
    { unfold group_step. rewrite Ei. destruct (bundle_info _ _); cbn; try reflexivity. rewrite Sv. destruct (select_valid_witness _ _); cbn; try reflexivity. rewrite Hw. reflexivity. }
    rewrite St. destruct (group_step K H s' acc b); cbn; [apply IH|reflexivity|reflexivity]. }
  assert (Sp : forall t x, assemble H K t tr cid (cl_terminals co) m = Ok x -> exists g bs, stash_genesis (sk_stash t) cid = Ok g /\ rfold (group_step K H t) [] (mvals m) = Ok bs /\
    c_genesis x = g /\ c_extensions x = [] /\ c_bundles x = mvals bs /\ c_terminals x = cl_terminals co /\ c_transfer x = tr).
  { intros t x. unfold assemble. destruct (stash_genesis (sk_stash t) cid) as [g|e|]; cbn; try discriminate. destruct (stash_schema _ _) as [si|e|]; cbn; try discriminate.
    destruct (ifaces_of _ _) as [is|e|]; cbn; try discriminate. destruct (rfold (group_step K H t) [] (mvals m)) as [bs|e|]; cbn; try discriminate.
    destruct (negb _); try discriminate. destruct (negb _); try discriminate. destruct (extract _ _ _) as [ex|e|]; cbn; try discriminate.
    destruct (negb _); try discriminate. destruct (negb _); try discriminate. intros X. apply Ok_inj in X. subst x. exists g, bs. cbn. auto 10. }
  destruct (Sp s c E) as (g & bs & G1 & G2 & G3 & G4 & G5 & G6 & G7). destruct (Sp s' c' E') as (g' & bs' & G1' & G2' & G3' & G4' & G5' & G6' & G7').
  rewrite Hg in G1. rewrite Gr in G2. rewrite G1 in G1'. apply Ok_inj in G1'. subst g'. rewrite G2 in G2'. apply Ok_inj in G2'. subst bs'.
  unfold same_content. repeat split; congruence.
Qed.
End Stocks.
