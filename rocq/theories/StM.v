(** * State with failure

    Rust methods taking [&mut self] and returning [Result]: a computation maps the
    state before the call to the state after it and to what it returned.  Leaving
    early with [?] or by a panic keeps everything written until then: nothing here
    rolls a write back. *)
From Verif Require Import Base.

Definition M (S E A : Type) : Type := S -> S * result E A.

Definition ret {S E A} (a : A) : M S E A := fun s => (s, Ok a).
Definition fail {S E A} (e : E) : M S E A := fun s => (s, Err e).
Definition panic {S E A} : M S E A := fun s => (s, Panic).
Definition bind {S E A B} (m : M S E A) (k : A -> M S E B) : M S E B :=
  fun s => match m s with
           | (s', Ok a) => k a s'
           | (s', Err e) => (s', Err e)
           | (s', Panic) => (s', Panic)
           end.
Notation "'do!' x <- m ;; k" := (bind m (fun x => k))
  (at level 200, x pattern, m at level 100, k at level 200, right associativity).
Notation "m ;;! k" := (bind m (fun _ => k)) (at level 199, right associativity).

(** Reading the state, replacing it, and a result computed without it *)
Definition get {S E} : M S E S := fun s => (s, Ok s).
Definition put {S E} (s : S) : M S E unit := fun _ => (s, Ok tt).
Definition lift {S E A} (r : result E A) : M S E A := fun s => (s, r).

(** A [for] loop whose body may leave with [?] *)
Fixpoint mfor {S E A} (f : A -> M S E unit) (l : list A) : M S E unit :=
  match l with
  | [] => ret tt
  | a :: l' => f a ;;! mfor f l'
  end.

(** A loop over [iter().enumerate()] *)
Fixpoint enum_from {A} (n : nat) (l : list A) : list (nat * A) :=
  match l with
  | [] => []
  | a :: l' => (n, a) :: enum_from (S n) l'
  end.
Definition enumerate {A} (l : list A) : list (nat * A) := enum_from 0 l.

Lemma enum_from_In {A} (l : list A) n i a :
  In (i, a) (enum_from n l) <-> n <= i /\ nth_error l (i - n) = Some a.
Proof.
  revert n; induction l as [|x l IH]; intros n; simpl.
  - split; [tauto|]. intros [_ E]. destruct (i - n); discriminate.
  - rewrite IH. split.
    + intros [[= -> ->]|[Hle Hn]].
      * rewrite Nat.sub_diag. auto.
      * split; [lia|]. destruct (i - n) as [|d] eqn:Ed; [lia|].
        simpl. replace d with (i - S n) by lia. exact Hn.
    + intros [Hle Hn]. destruct (i - n) as [|d] eqn:Ed.
      * left. simpl in Hn. apply Some_inj in Hn. subst. f_equal. lia.
      * right. split; [lia|]. replace (i - S n) with d by lia. exact Hn.
Qed.

Lemma enumerate_In {A} (l : list A) i a :
  In (i, a) (enumerate l) <-> nth_error l i = Some a.
Proof.
  unfold enumerate. rewrite enum_from_In, Nat.sub_0_r. split; [tauto|]. split; [lia|assumption].
Qed.
