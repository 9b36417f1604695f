(** * What [Eq], [Ord] and [Hash] of Rust require, for C59 *)
From Verif Require Import Base.

Definition equivalence {A} (eq : A -> A -> bool) : Prop :=
  (forall a, eq a a = true) /\ (forall a b, eq a b = true -> eq b a = true) /\
  (forall a b c, eq a b = true -> eq b c = true -> eq a c = true).
(** A total order up to equality *)
Definition ordered {A} (eq : A -> A -> bool) (cmp : A -> A -> comparison) : Prop :=
  (forall a b, cmp a b = Eq <-> eq a b = true) /\ (forall a b, cmp b a = CompOpp (cmp a b)) /\
  (forall a b c, cmp a b = Lt -> cmp b c = Lt -> cmp a c = Lt) /\
  (forall a b c, eq a b = true -> cmp a c = cmp b c).
(** Equal values give the hasher the same data. *)
Definition hashed {A B} (eq : A -> A -> bool) (fed : A -> B) : Prop := forall a b, eq a b = true -> fed a = fed b.
