(** Shared vocabulary of the model: results, ordered maps and sets, confined collections.

    Nothing here models code of /repo itself; these are the meanings given to the
    Rust standard library and [amplify] types used all over /repo:
    - [result]   : [Result] plus a separate value for a panic;
    - [omap]     : [BTreeMap] (a list of bindings sorted by key);
    - [oset]     : [BTreeSet] (a sorted list of elements);
    - [cinsert], [cpush] : [amplify::Confined] insertion. *)
From Coq Require Export List Bool NArith ZArith Lia Sorted Permutation.
From Coq Require Import Ascii.
From Coq Require Export ZifyBool ZifyNat ZifyN.
Export ListNotations.

#[global] Arguments N.add _ _ : simpl never.
#[global] Arguments N.sub _ _ : simpl never.
#[global] Arguments N.mul _ _ : simpl never.
#[global] Arguments N.div _ _ : simpl never.
#[global] Arguments N.modulo _ _ : simpl never.
#[global] Arguments N.pow _ _ : simpl never.
#[global] Arguments N.eqb _ _ : simpl never.
#[global] Arguments N.ltb _ _ : simpl never.
#[global] Arguments N.leb _ _ : simpl never.
#[global] Arguments N.of_nat _ : simpl never.
#[global] Arguments N.compare _ _ : simpl never.

(** * Results *)

(** A Rust [Result] whose third case is a panic (unwinding or abort). *)
Inductive result (E A : Type) : Type :=
| Ok (a : A)
| Err (e : E)
| Panic.
Arguments Ok {E A} a.
Arguments Err {E A} e.
Arguments Panic {E A}.

Lemma Ok_inj {E A} (a b : A) : @Ok E A a = Ok b -> a = b.
Proof. congruence. Qed.
Lemma Some_inj {A} (a b : A) : Some a = Some b -> a = b.
Proof. congruence. Qed.

Definition rbind {E A B} (r : result E A) (f : A -> result E B) : result E B :=
  match r with Ok a => f a | Err e => Err e | Panic => Panic end.
Notation "'let!' x := e 'in' k" := (rbind e (fun x => k))
  (at level 200, x pattern, e at level 100, k at level 200, right associativity).

Definition rmap {E A B} (f : A -> B) (r : result E A) : result E B :=
  match r with Ok a => Ok (f a) | Err e => Err e | Panic => Panic end.
Definition rmap_err {E E' A} (f : E -> E') (r : result E A) : result E' A :=
  match r with Ok a => Ok a | Err e => Err (f e) | Panic => Panic end.

Definition is_ok {E A} (r : result E A) : bool := match r with Ok _ => true | _ => false end.
Definition is_panic {E A} (r : result E A) : bool := match r with Panic => true | _ => false end.

(** [Option::ok_or]. *)
Definition ok_or {E A} (e : E) (o : option A) : result E A :=
  match o with Some a => Ok a | None => Err e end.
(** [Option::expect]. *)
Definition expect {E A} (o : option A) : result E A :=
  match o with Some a => Ok a | None => Panic end.

(** Fallible left fold: a [for] loop with [?] in its body. *)
Fixpoint rfold {E S A} (f : S -> A -> result E S) (s : S) (l : list A) : result E S :=
  match l with
  | [] => Ok s
  | a :: l' => let! s' := f s a in rfold f s' l'
  end.

(** * Ordered keys *)

(** The [Ord] instance of a key type. *)
Class OrdKey (K : Type) : Type := {
  cmp : K -> K -> comparison;
  cmp_eq : forall a b, cmp a b = Eq <-> a = b;
  cmp_opp : forall a b, cmp b a = CompOpp (cmp a b);
  cmp_lt_trans : forall a b c, cmp a b = Lt -> cmp b c = Lt -> cmp a c = Lt
}.

Section OrdKeyFacts.
  Context {K : Type} {OK : OrdKey K}.

  Lemma cmp_refl (a : K) : cmp a a = Eq.
  Proof. apply cmp_eq; reflexivity. Qed.

  Lemma cmp_gt_lt (a b : K) : cmp a b = Gt <-> cmp b a = Lt.
  Proof. rewrite (cmp_opp a b). destruct (cmp a b); simpl; split; congruence. Qed.

  Definition keqb (a b : K) : bool := match cmp a b with Eq => true | _ => false end.

  Lemma keqb_eq (a b : K) : keqb a b = true <-> a = b.
  Proof. unfold keqb. rewrite <- cmp_eq. destruct (cmp a b); split; congruence. Qed.

  Lemma keqb_true (a b : K) : keqb a b = true -> a = b.
  Proof. exact (proj1 (keqb_eq a b)). Qed.

  Lemma keqb_false (a b : K) : keqb a b = false -> a <> b.
  Proof.
    intros H E. rewrite (proj2 (keqb_eq a b) E) in H; discriminate.
  Qed.

  Lemma keqb_refl (a : K) : keqb a a = true.
  Proof. apply keqb_eq; reflexivity. Qed.

  Lemma keqb_neq (a b : K) : keqb a b = false <-> a <> b.
  Proof. rewrite <- keqb_eq. destruct (keqb a b); split; congruence. Qed.

  Lemma keqb_spec (a b : K) : reflect (a = b) (keqb a b).
  Proof. apply iff_reflect. symmetry. apply keqb_eq. Qed.

  Lemma keqb_sym (a b : K) : keqb a b = keqb b a.
  Proof.
    destruct (keqb_spec a b) as [->|H]; [symmetry; apply keqb_refl|].
    symmetry. apply keqb_neq. congruence.
  Qed.

  Lemma key_dec (a b : K) : {a = b} + {a <> b}.
  Proof. destruct (keqb a b) eqn:E; [left; apply keqb_eq|right; apply keqb_neq]; exact E. Qed.

  Lemma cmp_lt_irrefl (a : K) : cmp a a <> Lt.
  Proof. rewrite cmp_refl; congruence. Qed.
End OrdKeyFacts.

#[export] Instance OrdN : OrdKey N.
Proof.
  refine {| cmp := N.compare |}.
  - intros a b; apply N.compare_eq_iff.
  - intros a b; apply N.compare_antisym.
  - intros a b c; rewrite !N.compare_lt_iff; lia.
Defined.

Definition bool_cmp (a b : bool) : comparison :=
  match a, b with false, true => Lt | true, false => Gt | _, _ => Eq end.

#[export] Instance OrdBool : OrdKey bool.
Proof.
  refine {| cmp := bool_cmp |}.
  - intros [] []; simpl; split; congruence.
  - intros [] []; reflexivity.
  - intros [] [] []; simpl; congruence.
Defined.

Definition cmp_then (a b : comparison) : comparison := match a with Eq => b | _ => a end.

Definition prod_cmp {A B} `{OrdKey A} `{OrdKey B} (x y : A * B) : comparison :=
  cmp_then (cmp (fst x) (fst y)) (cmp (snd x) (snd y)).

#[export] Instance OrdProd {A B} `{OrdKey A} `{OrdKey B} : OrdKey (A * B).
Proof.
  refine {| cmp := prod_cmp |}; unfold prod_cmp, cmp_then.
  - intros [a b] [c d]; simpl. destruct (cmp a c) eqn:E1.
    + apply cmp_eq in E1; subst. rewrite cmp_eq. split; congruence.
    + split; [congruence|]. intros X; inversion X; subst. rewrite cmp_refl in E1; congruence.
    + split; [congruence|]. intros X; inversion X; subst. rewrite cmp_refl in E1; congruence.
  - intros [a b] [c d]; simpl. rewrite (cmp_opp a c), (cmp_opp b d).
    destruct (cmp a c); reflexivity.
  - intros [a b] [c d] [e f]; simpl.
    destruct (cmp a c) eqn:E1; try congruence; destruct (cmp c e) eqn:E2; try congruence;
      intros Q1 Q2.
    + apply cmp_eq in E1, E2; subst. rewrite cmp_refl. eapply cmp_lt_trans; eassumption.
    + apply cmp_eq in E1; subst. rewrite E2; reflexivity.
    + apply cmp_eq in E2; subst. rewrite E1; reflexivity.
    + rewrite (cmp_lt_trans _ _ _ E1 E2). reflexivity.
Defined.

Definition option_cmp {A} `{OrdKey A} (x y : option A) : comparison :=
  match x, y with
  | None, None => Eq | None, Some _ => Lt | Some _, None => Gt
  | Some a, Some b => cmp a b
  end.

#[export] Instance OrdOption {A} `{OrdKey A} : OrdKey (option A).
Proof.
  refine {| cmp := option_cmp |}.
  - intros [a|] [b|]; simpl; try (split; congruence). rewrite cmp_eq. split; congruence.
  - intros [a|] [b|]; simpl; try reflexivity. apply cmp_opp.
  - intros [a|] [b|] [c|]; simpl; try congruence. apply cmp_lt_trans.
Defined.

Fixpoint list_cmp {A} `{OrdKey A} (x y : list A) : comparison :=
  match x, y with
  | [], [] => Eq
  | [], _ => Lt
  | _, [] => Gt
  | a :: x', b :: y' => cmp_then (cmp a b) (list_cmp x' y')
  end.

#[export] Instance OrdList {A} `{OrdKey A} : OrdKey (list A).
Proof.
  refine {| cmp := list_cmp |}.
  - induction a as [|x a IH]; intros [|y b]; simpl; try (split; congruence).
    unfold cmp_then. destruct (cmp x y) eqn:E.
    + apply cmp_eq in E; subst. rewrite IH. split; congruence.
    + split; [congruence|]. intros X; inversion X; subst. rewrite cmp_refl in E; congruence.
    + split; [congruence|]. intros X; inversion X; subst. rewrite cmp_refl in E; congruence.
  - induction a as [|x a IH]; intros [|y b]; simpl; try reflexivity.
    unfold cmp_then. rewrite (cmp_opp x y), IH. destruct (cmp x y); reflexivity.
  - induction a as [|x a IH]; intros [|y b] [|z c]; simpl; try congruence.
    unfold cmp_then.
    destruct (cmp x y) eqn:E1; try congruence; destruct (cmp y z) eqn:E2; try congruence;
      intros Q1 Q2.
    + apply cmp_eq in E1, E2; subst. rewrite cmp_refl. eapply IH; eassumption.
    + apply cmp_eq in E1; subst. rewrite E2; reflexivity.
    + apply cmp_eq in E2; subst. rewrite E1; reflexivity.
    + rewrite (cmp_lt_trans _ _ _ E1 E2). reflexivity.
Defined.

(** Order of a type given by an injection into an ordered type: a derived [Ord]. *)
Definition OrdVia {A B} `{OrdKey B} (f : A -> B) (inj : forall a b, f a = f b -> a = b)
  : OrdKey A.
Proof.
  refine {| cmp := fun a b => cmp (f a) (f b) |}.
  - intros a b. rewrite cmp_eq. split; [apply inj|congruence].
  - intros a b. apply cmp_opp.
  - intros a b c. apply cmp_lt_trans.
Defined.

#[export] Instance OrdAscii : OrdKey ascii := OrdVia N_of_ascii
  (fun a b e => eq_trans (eq_sym (ascii_N_embedding a))
                  (eq_trans (f_equal ascii_of_N e) (ascii_N_embedding b))).

(** * Ordered maps *)

Definition omap (K V : Type) := list (K * V).

Section OMap.
  Context {K V : Type} {OK : OrdKey K}.
  Implicit Types (m : omap K V) (k : K) (v : V).

  Fixpoint mget k m : option V :=
    match m with
    | [] => None
    | (k', v') :: m' => if keqb k k' then Some v' else mget k m'
    end.

  Definition mhas k m : bool := match mget k m with Some _ => true | None => false end.

  (** [BTreeMap::insert]: an existing key is kept and its value replaced. *)
  Fixpoint minsert k v m : omap K V :=
    match m with
    | [] => [(k, v)]
    | (k', v') :: m' =>
        match cmp k k' with
        | Lt => (k, v) :: m
        | Eq => (k', v) :: m'
        | Gt => (k', v') :: minsert k v m'
        end
    end.

  Definition mremove k m : omap K V := filter (fun p => negb (keqb k (fst p))) m.

  Definition mkeys m : list K := map fst m.
  Definition mvals m : list V := map snd m.

  Definition key_lt (a b : K * V) : Prop := cmp (fst a) (fst b) = Lt.
  Definition msorted m : Prop := StronglySorted key_lt m.

  Lemma msorted_nil : msorted [].
  Proof. constructor. Qed.

  Lemma mget_insert_eq k v m : mget k (minsert k v m) = Some v.
  Proof.
    induction m as [|[k' v'] m IH]; simpl.
    - rewrite keqb_refl; reflexivity.
    - destruct (cmp k k') eqn:E; simpl.
      + apply cmp_eq in E; subst. rewrite keqb_refl; reflexivity.
      + rewrite keqb_refl; reflexivity.
      + unfold keqb; rewrite E. exact IH.
  Qed.

  Lemma mget_insert_ne k k' v m : k <> k' -> mget k' (minsert k v m) = mget k' m.
  Proof.
    intros Hne. induction m as [|[k2 v2] m IH]; simpl.
    - destruct (keqb_spec k' k) as [->|_]; [congruence|reflexivity].
    - destruct (cmp k k2) eqn:E; simpl.
      + apply cmp_eq in E; subst. destruct (keqb_spec k' k2) as [->|_]; [congruence|reflexivity].
      + destruct (keqb_spec k' k) as [->|_]; [congruence|reflexivity].
      + destruct (keqb k' k2); [reflexivity|exact IH].
  Qed.

  Lemma mget_insert k k' v m :
    mget k' (minsert k v m) = if keqb k' k then Some v else mget k' m.
  Proof.
    destruct (keqb_spec k' k) as [->|H].
    - apply mget_insert_eq.
    - apply mget_insert_ne; congruence.
  Qed.

  Lemma mget_remove_eq k m : mget k (mremove k m) = None.
  Proof.
    induction m as [|[k' v'] m IH]; simpl; [reflexivity|].
    destruct (keqb k k') eqn:E; simpl; [exact IH|]. rewrite E; exact IH.
  Qed.

  Lemma mget_remove_ne k k' m : k <> k' -> mget k' (mremove k m) = mget k' m.
  Proof.
    intros Hne. induction m as [|[k2 v2] m IH]; simpl; [reflexivity|].
    destruct (keqb_spec k k2) as [->|H]; simpl.
    - destruct (keqb_spec k' k2) as [->|_]; [congruence|exact IH].
    - destruct (keqb k' k2); [reflexivity|exact IH].
  Qed.

  Lemma mget_remove k k' m :
    mget k' (mremove k m) = if keqb k' k then None else mget k' m.
  Proof.
    destruct (keqb_spec k' k) as [->|H].
    - apply mget_remove_eq.
    - apply mget_remove_ne; congruence.
  Qed.

  Lemma mhas_true k m : mhas k m = true <-> exists v, mget k m = Some v.
  Proof. unfold mhas. destruct (mget k m) eqn:E; split; eauto; try congruence. intros [v H]; congruence. Qed.

  Lemma mhas_false k m : mhas k m = false <-> mget k m = None.
  Proof. unfold mhas. destruct (mget k m) eqn:E; split; congruence. Qed.

  Lemma mget_In k v m : mget k m = Some v -> In (k, v) m.
  Proof.
    induction m as [|[k' v'] m IH]; simpl; [congruence|].
    destruct (keqb_spec k k') as [->|_]; [intros X; inversion X; subst; left; reflexivity|right; auto].
  Qed.

  Lemma mget_None_notin k m : mget k m = None <-> ~ In k (mkeys m).
  Proof.
    induction m as [|[k' v'] m IH]; simpl; [tauto|].
    destruct (keqb_spec k k') as [->|H].
    - split; [congruence|tauto].
    - rewrite IH. split; [intros A [B|B]; [congruence|tauto]|tauto].
  Qed.

  Lemma mget_Some_in k m : In k (mkeys m) <-> exists v, mget k m = Some v.
  Proof.
    destruct (mget k m) as [v|] eqn:E.
    - split; [eauto|]. intros _. apply mget_In in E. apply in_map with (f := fst) in E. exact E.
    - apply mget_None_notin in E. split; [tauto|intros [v X]; congruence].
  Qed.

  Lemma msorted_inv p m : msorted (p :: m) -> msorted m /\ Forall (key_lt p) m.
  Proof. intros H; inversion H; subst; split; assumption. Qed.

  Lemma In_mget k v m : msorted m -> In (k, v) m -> mget k m = Some v.
  Proof.
    induction m as [|[k' v'] m IH]; simpl; [tauto|].
    intros Hs [X|X].
    - inversion X; subst. rewrite keqb_refl; reflexivity.
    - apply msorted_inv in Hs as [Hs Hf].
      destruct (keqb_spec k k') as [->|_]; [|auto].
      rewrite Forall_forall in Hf. specialize (Hf _ X). unfold key_lt in Hf; simpl in Hf.
      rewrite cmp_refl in Hf; congruence.
  Qed.

  Lemma In_insert p k v m : In p (minsert k v m) -> p = (k, v) \/ In p m.
  Proof.
    induction m as [|[k' v'] m IH]; simpl.
    - intros [X|[]]; auto.
    - destruct (cmp k k') eqn:E; simpl.
      + apply cmp_eq in E; subst. intros [X|X]; auto.
      + intros [X|[X|X]]; auto.
      + intros [X|X]; auto. destruct (IH X); auto.
  Qed.

  Lemma In_remove p k m : In p (mremove k m) <-> In p m /\ fst p <> k.
  Proof.
    unfold mremove. rewrite filter_In. rewrite negb_true_iff, keqb_neq. intuition congruence.
  Qed.

  Lemma minsert_sorted k v m : msorted m -> msorted (minsert k v m).
  Proof.
    induction m as [|[k' v'] m IH]; simpl; intros Hs.
    - constructor; constructor.
    - pose proof Hs as Hs0. apply msorted_inv in Hs as [Hs Hf].
      destruct (cmp k k') eqn:E.
      + apply cmp_eq in E; subst. constructor; [exact Hs|].
        eapply Forall_impl; [|exact Hf]. unfold key_lt; simpl; auto.
      + constructor; [exact Hs0|]. constructor; [exact E|].
        eapply Forall_impl; [|exact Hf]. unfold key_lt; simpl; intros [a b] Hab.
        simpl in *. eapply cmp_lt_trans; eassumption.
      + constructor; [exact (IH Hs)|]. rewrite Forall_forall. intros p Hp.
        apply In_insert in Hp as [->|Hp].
        * unfold key_lt; simpl. apply cmp_gt_lt; exact E.
        * rewrite Forall_forall in Hf; auto.
  Qed.

  Lemma mremove_sorted k m : msorted m -> msorted (mremove k m).
  Proof.
    induction m as [|[k' v'] m IH]; simpl; intros Hs; [constructor|].
    apply msorted_inv in Hs as [Hs Hf].
    destruct (keqb k k'); simpl; [exact (IH Hs)|]. constructor; [exact (IH Hs)|].
    rewrite Forall_forall in Hf. apply Forall_forall.
    intros p Hp. apply Hf. apply (In_remove p k m). exact Hp.
  Qed.

  Lemma msorted_NoDup m : msorted m -> NoDup (mkeys m).
  Proof.
    induction m as [|[k v] m IH]; simpl; intros Hs; [constructor|].
    apply msorted_inv in Hs as [Hs Hf]. constructor; [|exact (IH Hs)].
    intros Hin. unfold mkeys in Hin. apply in_map_iff in Hin as [[k' v'] [Hk Hin]]. simpl in Hk; subst.
    rewrite Forall_forall in Hf. specialize (Hf _ Hin). unfold key_lt in Hf; simpl in Hf.
    rewrite cmp_refl in Hf; congruence.
  Qed.

  Lemma minsert_same k v m : msorted m -> mget k m = Some v -> minsert k v m = m.
  Proof.
    induction m as [|[k' v'] m IH]; simpl; [congruence|].
    intros Hs Hg. apply msorted_inv in Hs as [Hs Hf].
    destruct (cmp k k') eqn:E; unfold keqb in Hg; rewrite E in Hg.
    - congruence.
    - exfalso. apply mget_In in Hg. rewrite Forall_forall in Hf. specialize (Hf _ Hg).
      unfold key_lt in Hf; simpl in Hf. pose proof (cmp_lt_trans _ _ _ E Hf) as X.
      rewrite cmp_refl in X; congruence.
    - f_equal; auto.
  Qed.

  Lemma length_insert k v m : msorted m ->
    length (minsert k v m) = if mhas k m then length m else S (length m).
  Proof.
    unfold mhas. induction m as [|[k' v'] m IH]; simpl; [reflexivity|].
    intros Hs. apply msorted_inv in Hs as [Hs Hf]. specialize (IH Hs).
    unfold keqb. destruct (cmp k k') eqn:E; simpl; [reflexivity| |].
    - destruct (mget k m) as [v2|] eqn:G; [|reflexivity].
      exfalso. apply mget_In in G. rewrite Forall_forall in Hf. specialize (Hf _ G).
      unfold key_lt in Hf; simpl in Hf. pose proof (cmp_lt_trans _ _ _ E Hf) as X.
      rewrite cmp_refl in X; congruence.
    - rewrite IH. destruct (mget k m); reflexivity.
  Qed.

  Lemma length_insert_le k v m : length (minsert k v m) <= S (length m).
  Proof.
    induction m as [|[k' v'] m IH]; simpl; [lia|].
    destruct (cmp k k'); simpl; lia.
  Qed.

  Lemma msorted_ext m1 m2 : msorted m1 -> msorted m2 ->
    (forall k, mget k m1 = mget k m2) -> m1 = m2.
  Proof.
    revert m2; induction m1 as [|[k1 v1] m1 IH]; intros [|[k2 v2] m2] H1 H2 Hext.
    - reflexivity.
    - specialize (Hext k2); simpl in Hext. rewrite keqb_refl in Hext; congruence.
    - specialize (Hext k1); simpl in Hext. rewrite keqb_refl in Hext; congruence.
    - apply msorted_inv in H1 as [H1 F1]. apply msorted_inv in H2 as [H2 F2].
      rewrite Forall_forall in F1, F2.
      assert (Hk : k1 = k2).
      { destruct (cmp k1 k2) eqn:E.
        - apply cmp_eq; exact E.
        - exfalso. pose proof (Hext k1) as X. simpl in X. rewrite keqb_refl in X.
          unfold keqb in X; rewrite E in X. symmetry in X. apply mget_In in X.
          apply F2 in X. unfold key_lt in X; simpl in X.
          pose proof (cmp_lt_trans _ _ _ E X) as Y. rewrite cmp_refl in Y; congruence.
        - exfalso. apply cmp_gt_lt in E. pose proof (Hext k2) as X. simpl in X.
          rewrite keqb_refl in X. unfold keqb in X; rewrite E in X. apply mget_In in X.
          apply F1 in X. unfold key_lt in X; simpl in X.
          pose proof (cmp_lt_trans _ _ _ E X) as Y. rewrite cmp_refl in Y; congruence. }
      subst k2.
      assert (Hv : v1 = v2).
      { specialize (Hext k1). simpl in Hext. rewrite keqb_refl in Hext. congruence. }
      subst v2. f_equal. apply IH; [exact H1|exact H2|].
      intros k. pose proof (Hext k) as X. simpl in X.
      destruct (keqb_spec k k1) as [Hk1|Hk1]; [subst k|exact X].
      transitivity (@None V).
      + apply mget_None_notin. intros Hin. apply in_map_iff in Hin as [[a b] [Ha Hin]].
        simpl in Ha; subst. apply F1 in Hin. unfold key_lt in Hin; simpl in Hin.
        rewrite cmp_refl in Hin; congruence.
      + symmetry. apply mget_None_notin. intros Hin. apply in_map_iff in Hin as [[a b] [Ha Hin]].
        simpl in Ha; subst. apply F2 in Hin. unfold key_lt in Hin; simpl in Hin.
        rewrite cmp_refl in Hin; congruence.
  Qed.
End OMap.

Arguments omap : clear implicits.

(** Map of values, keeping keys ([iter_mut] / rebuilding). *)
Definition mmap {K V W} (f : V -> W) (m : omap K V) : omap K W :=
  map (fun p => (fst p, f (snd p))) m.

Lemma mget_mmap {K V W} `{OrdKey K} (f : V -> W) (m : omap K V) k :
  mget k (mmap f m) = option_map f (mget k m).
Proof.
  induction m as [|[k' v'] m IH]; simpl; [reflexivity|].
  destruct (keqb k k'); [reflexivity|exact IH].
Qed.

(** Collecting an iterator of pairs into a [BTreeMap]: the last binding of a key wins. *)
Definition mfrom {K V} `{OrdKey K} (l : list (K * V)) : omap K V :=
  fold_left (fun m p => minsert (fst p) (snd p) m) l [].

(** * Ordered sets *)

Definition oset (K : Type) := list K.

Section OSet.
  Context {K : Type} {OK : OrdKey K}.
  Implicit Types (s : oset K) (k : K).

  Definition smem k s : bool := existsb (keqb k) s.

  Fixpoint sinsert k s : oset K :=
    match s with
    | [] => [k]
    | k' :: s' =>
        match cmp k k' with
        | Lt => k :: s
        | Eq => s
        | Gt => k' :: sinsert k s'
        end
    end.

  Definition ssorted s : Prop := StronglySorted (fun a b => cmp a b = Lt) s.

  Lemma smem_In k s : smem k s = true <-> In k s.
  Proof.
    unfold smem. rewrite existsb_exists. split.
    - intros [x [Hx E]]. apply keqb_true in E; subst; exact Hx.
    - intros H. exists k. split; [exact H|apply keqb_refl].
  Qed.

  Lemma smem_false k s : smem k s = false <-> ~ In k s.
  Proof. rewrite <- smem_In. destruct (smem k s); split; congruence. Qed.

  Lemma In_sinsert x k s : In x (sinsert k s) <-> x = k \/ In x s.
  Proof.
    induction s as [|k' s IH]; simpl.
    - intuition.
    - destruct (cmp k k') eqn:E; simpl.
      + apply cmp_eq in E; subst. intuition.
      + intuition.
      + rewrite IH. intuition.
  Qed.

  Lemma smem_sinsert x k s : smem x (sinsert k s) = keqb x k || smem x s.
  Proof.
    apply Bool.eq_iff_eq_true. rewrite orb_true_iff, !smem_In, keqb_eq. apply In_sinsert.
  Qed.

  Lemma ssorted_inv k s : ssorted (k :: s) -> ssorted s /\ Forall (fun b => cmp k b = Lt) s.
  Proof. intros H; inversion H; subst; split; assumption. Qed.

  Lemma sinsert_sorted k s : ssorted s -> ssorted (sinsert k s).
  Proof.
    induction s as [|k' s IH]; simpl; intros Hs.
    - constructor; constructor.
    - pose proof Hs as Hs0. apply ssorted_inv in Hs as [Hs Hf].
      destruct (cmp k k') eqn:E.
      + exact Hs0.
      + constructor; [exact Hs0|]. constructor; [exact E|].
        eapply Forall_impl; [|exact Hf]. simpl; intros a Ha. eapply cmp_lt_trans; eassumption.
      + constructor; [exact (IH Hs)|]. rewrite Forall_forall in Hf. apply Forall_forall. intros p Hp.
        apply In_sinsert in Hp as [->|Hp]; [apply cmp_gt_lt; exact E|auto].
  Qed.

  Lemma sinsert_present k s : ssorted s -> In k s -> sinsert k s = s.
  Proof.
    induction s as [|k' s IH]; simpl; [tauto|].
    intros Hs Hin. apply ssorted_inv in Hs as [Hs Hf]. rewrite Forall_forall in Hf.
    destruct (cmp k k') eqn:E; [reflexivity| |].
    - destruct Hin as [->|Hin]; [rewrite cmp_refl in E; congruence|].
      apply Hf in Hin. pose proof (cmp_lt_trans _ _ _ E Hin) as X. rewrite cmp_refl in X; congruence.
    - destruct Hin as [->|Hin]; [rewrite cmp_refl in E; congruence|]. f_equal; auto.
  Qed.

  Lemma ssorted_NoDup s : ssorted s -> NoDup s.
  Proof.
    induction s as [|k s IH]; intros Hs; [constructor|].
    apply ssorted_inv in Hs as [Hs Hf]. constructor; [|exact (IH Hs)].
    intros Hin. rewrite Forall_forall in Hf. apply Hf in Hin. rewrite cmp_refl in Hin; congruence.
  Qed.

  Lemma ssorted_ext s1 s2 : ssorted s1 -> ssorted s2 ->
    (forall k, In k s1 <-> In k s2) -> s1 = s2.
  Proof.
    revert s2; induction s1 as [|k1 s1 IH]; intros [|k2 s2] H1 H2 Hext.
    - reflexivity.
    - exfalso. apply (Hext k2). left; reflexivity.
    - exfalso. apply (Hext k1). left; reflexivity.
    - apply ssorted_inv in H1 as [H1 F1]. apply ssorted_inv in H2 as [H2 F2].
      rewrite Forall_forall in F1, F2.
      assert (Hk : k1 = k2).
      { destruct (proj1 (Hext k1) (or_introl eq_refl)) as [X|X]; [congruence|].
        destruct (proj2 (Hext k2) (or_introl eq_refl)) as [Y|Y]; [congruence|].
        apply F2 in X. apply F1 in Y. pose proof (cmp_lt_trans _ _ _ X Y) as Z.
        rewrite cmp_refl in Z; congruence. }
      subst k2. f_equal. apply IH; [exact H1|exact H2|].
      intros k. pose proof (Hext k) as X. simpl in X. split; intros Hin.
      + destruct (proj1 X (or_intror Hin)) as [Y|Y]; [|exact Y]. subst.
        apply F1 in Hin. rewrite cmp_refl in Hin; congruence.
      + destruct (proj2 X (or_intror Hin)) as [Y|Y]; [|exact Y]. subst.
        apply F2 in Hin. rewrite cmp_refl in Hin; congruence.
  Qed.

  Lemma length_sinsert k s : ssorted s ->
    length (sinsert k s) = if smem k s then length s else S (length s).
  Proof.
    intros Hs. destruct (smem k s) eqn:E.
    - apply smem_In in E. rewrite sinsert_present; auto.
    - apply smem_false in E. clear Hs. induction s as [|k' s IH]; simpl in *; [reflexivity|].
      destruct (cmp k k') eqn:C; simpl; [|reflexivity|].
      + apply cmp_eq in C; subst; tauto.
      + f_equal. apply IH. tauto.
  Qed.

  (** Collecting an iterator into a [BTreeSet]. *)
  Definition sfrom (l : list K) : oset K := fold_left (fun s k => sinsert k s) l [].

  Lemma fold_sinsert_In l s x : In x (fold_left (fun s k => sinsert k s) l s) <-> In x l \/ In x s.
  Proof.
    revert s; induction l as [|a l IH]; intros s; simpl; [tauto|].
    rewrite IH, In_sinsert. intuition.
  Qed.

  Lemma fold_sinsert_sorted l s : ssorted s -> ssorted (fold_left (fun s k => sinsert k s) l s).
  Proof. revert s; induction l as [|a l IH]; intros s Hs; simpl; auto using sinsert_sorted. Qed.

  Lemma sfrom_In l x : In x (sfrom l) <-> In x l.
  Proof. unfold sfrom. rewrite fold_sinsert_In. simpl. tauto. Qed.

  Lemma sfrom_sorted l : ssorted (sfrom l).
  Proof. apply fold_sinsert_sorted. constructor. Qed.
End OSet.

Arguments oset : clear implicits.

(** * Confined collections ([amplify::confinement::Confined]) *)

(** Maximal lengths of [Tiny*], [Small*], [Medium*] and [Large*] collections. *)
Definition U8MAX : N := 255%N.
Definition U16MAX : N := 65535%N.
Definition U24MAX : N := 16777215%N.
Definition U32MAX : N := 4294967295%N.
Definition U64MAX : N := 18446744073709551615%N.

Definition len {A} (l : list A) : N := N.of_nat (length l).

(** [Confined::insert] on a map: refuses when the collection is full, even if the key
    is already there (behaviour of the external crate, see DESIGN.md). *)
Definition cinsert {K V} `{OrdKey K} (max : N) (k : K) (v : V) (m : omap K V)
  : option (omap K V) :=
  if (len m <? max)%N then Some (minsert k v m) else None.

(** [Confined::push] on a set. *)
Definition cpush {K} `{OrdKey K} (max : N) (k : K) (s : oset K) : option (oset K) :=
  if (len s <? max)%N then Some (sinsert k s) else None.

(** [Confined::push] on a vector. *)
Definition cpush_back {A} (max : N) (a : A) (l : list A) : option (list A) :=
  if (len l <? max)%N then Some (l ++ [a]) else None.

(** * Small list helpers *)

Fixpoint find_map {A B} (f : A -> option B) (l : list A) : option B :=
  match l with
  | [] => None
  | a :: l' => match f a with Some b => Some b | None => find_map f l' end
  end.

Fixpoint filter_map {A B} (f : A -> option B) (l : list A) : list B :=
  match l with
  | [] => []
  | a :: l' => match f a with Some b => b :: filter_map f l' | None => filter_map f l' end
  end.

Lemma filter_map_In {A B} (f : A -> option B) l b :
  In b (filter_map f l) <-> exists a, In a l /\ f a = Some b.
Proof.
  induction l as [|a l IH]; simpl.
  - split; [tauto|intros [a [[] _]]].
  - destruct (f a) as [b'|] eqn:E; simpl; rewrite IH; split.
    + intros [<-|[x [Hx Ex]]]; eauto.
    + intros [x [[<-|Hx] Ex]]; [left; congruence|right; eauto].
    + intros [x [Hx Ex]]; eauto.
    + intros [x [[<-|Hx] Ex]]; [congruence|eauto].
Qed.

Lemma find_map_Some {A B} (f : A -> option B) l b :
  find_map f l = Some b <->
  exists l1 a l2, l = l1 ++ a :: l2 /\ f a = Some b /\ Forall (fun x => f x = None) l1.
Proof.
  induction l as [|a l IH]; simpl.
  - split; [congruence|]. intros (l1 & a & l2 & H & _). destruct l1; discriminate.
  - destruct (f a) as [b'|] eqn:E.
    + split.
      * intros X; inversion X; subst. exists [], a, l. auto.
      * intros (l1 & a' & l2 & H & Ha & Hf). destruct l1 as [|x l1]; simpl in H; inversion H; subst.
        -- congruence.
        -- inversion Hf; congruence.
    + rewrite IH. split.
      * intros (l1 & a' & l2 & -> & Ha & Hf). exists (a :: l1), a', l2. auto.
      * intros (l1 & a' & l2 & H & Ha & Hf). destruct l1 as [|x l1]; simpl in H; inversion H; subst.
        -- congruence.
        -- inversion Hf; subst. exists l1, a', l2. auto.
Qed.

Lemma find_map_None {A B} (f : A -> option B) l :
  find_map f l = None <-> Forall (fun x => f x = None) l.
Proof.
  induction l as [|a l IH]; simpl; [split; auto|].
  destruct (f a) eqn:E.
  - split; [congruence|]. intros H; inversion H; congruence.
  - rewrite IH. split; [auto|]. intros H; inversion H; auto.
Qed.

Definition list_sum (l : list N) : N := fold_right N.add 0%N l.

Lemma list_sum_app l1 l2 : list_sum (l1 ++ l2) = (list_sum l1 + list_sum l2)%N.
Proof. induction l1 as [|a l1 IH]; simpl; [reflexivity|]. rewrite IH. lia. Qed.

Lemma list_sum_perm l1 l2 : Permutation l1 l2 -> list_sum l1 = list_sum l2.
Proof. induction 1; simpl; lia. Qed.

Lemma rfold_app {E S A} (f : S -> A -> result E S) l1 l2 s :
  rfold f s (l1 ++ l2) = rbind (rfold f s l1) (fun s' => rfold f s' l2).
Proof.
  revert s; induction l1 as [|a l1 IH]; intros s; simpl; [reflexivity|].
  destruct (f s a); simpl; auto.
Qed.
