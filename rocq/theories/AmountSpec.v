(** Specification vocabulary for amounts (C01-C05); independent of AmountModel's helpers. *)
From Coq Require Import Ascii String.
From Verif Require Import Base Str.
Local Open Scope N_scope.

(** A value a u64 can hold. *)
Definition u64 (n : N) : Prop := n < 2 ^ 64.

(** The letters an amount text may use. *)
Definition amount_letters : list ascii :=
  list_ascii_of_string "abcdefghkmnABCDEFGHKMNPQRSTVWXYZ".

(** [q] is [a / m] rounded down / up / to the nearest integer, halves up. *)
Definition is_floor (a m q : N) : Prop := q * m <= a < (q + 1) * m.
Definition is_ceil (a m q : N) : Prop := a <= q * m /\ forall q', a <= q' * m -> q <= q'.
Definition is_round_half_up (a m q : N) : Prop := (2 * q) * m <= 2 * a + m < (2 * q + 2) * m.

(** Mathematical sum of a sequence. *)
Fixpoint total (l : list N) : N := match l with [] => 0 | a :: l' => a + total l' end.

(** A group separator. *)
Definition separator (c : ascii) : Prop := c = " "%char \/ c = "_"%char.
(** [s'] is [s] with the group separators removed. *)
Inductive unseparated : str -> str -> Prop :=
| us_nil : unseparated [] []
| us_skip c s s' : separator c -> unseparated s s' -> unseparated (c :: s) s'
| us_keep c s s' : ~ separator c -> unseparated s s' -> unseparated (c :: s) (c :: s').

(** [s] is a non-empty string of decimal digits with value [n]. *)
Definition decimal (s : str) (n : N) : Prop := s <> [] /\ dec_value s = Some n.
