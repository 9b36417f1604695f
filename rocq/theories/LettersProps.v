(** * The texts of amounts: property theorems C01 and C05 *)
From Coq Require Import Ascii String.
From Verif Require Import Base Str AmountModel AmountSpec LettersSpec LettersProofs.
Local Open Scope N_scope.

(** C01, reading: a text is read as an amount exactly if its letters, taken as digits of base
    32, spell at most eight bytes, and then as the number of these bytes. *)
Theorem C01_reads : forall s a, amount_from_str s = Ok a <-> reads_amount s a.
Proof. exact amount_from_str_iff. Qed.
Print Assumptions C01_reads.
(** The same number has other texts which are read: those with something left over, and those
    with further zero bytes. *)
Example C01_reads_example :
  (amount_from_str (lit "BF") = Ok 100 /\ amount_from_str (lit "BG") = Ok 100 /\ amount_from_str (lit "BFaa") = Ok 100) /\
  reads_amount (lit "BF") 100.
Proof.
  split; [vm_compute; auto|]. apply C01_reads. vm_compute. reflexivity.
Qed.

(** C01, writing: an amount is written with the fewest bytes which hold it. *)
Theorem C01_writes : forall a s, u64 a -> amount_display a = s <-> writes_amount a s.
Proof. exact amount_display_iff. Qed.
Print Assumptions C01_writes.
Example C01_writes_example : u64 100000 /\ amount_display 100000 = lit "Mcdac"  /\ writes_amount 100000 (lit "Mcdac").
Proof.
  assert (U : u64 100000) by (vm_compute; reflexivity).
  split; [exact U|]. split; [vm_compute; reflexivity|]. apply C01_writes; [exact U|vm_compute; reflexivity].
Qed.

(** Two texts of the same amount: reading does not tell them apart, writing gives one of them. *)
Theorem C01_canonical : forall s a, amount_from_str s = Ok a ->
  u64 a /\ writes_amount a (amount_display a) /\ reads_amount (amount_display a) a /\
  (writes_amount a s <-> s = amount_display a).
Proof.
  intros s a E.
  assert (U : u64 a) by (exact (proj1 (AmountProofs.amount_from_str_sound s a E))).
  pose proof (proj1 (C01_writes a _ U) eq_refl) as W. split; [exact U|]. split; [exact W|]. split.
  - apply C01_reads, AmountProofs.amount_round_trip, U.
  - split; [intros X; symmetry; apply C01_writes; assumption|intros ->; exact W].
Qed.
Print Assumptions C01_canonical.

(** C05, reading: a text is read as a coin amount exactly as its parts say. *)
Theorem C05_reads : forall s c, coin_from_str s = Ok c <-> reads_coin s c.
Proof. exact coin_from_str_iff. Qed.
Print Assumptions C05_reads.
(** A text without a fraction is read with one decimal; a fraction may have more digits than
    the precision it comes with. *)
Example C05_reads_example :
  reads_coin (lit "10 000.05") {| ca_int := 10000; ca_fract := 5; ca_precision := Centi |} /\
  reads_coin (lit "7") {| ca_int := 7; ca_fract := 0; ca_precision := Deci |} /\
  reads_coin (lit "1.500~1") {| ca_int := 1; ca_fract := 500; ca_precision := Deci |} /\
  ~ (exists c, reads_coin (lit "7~2") c).
Proof.
  split; [|split; [|split]]; try (apply C05_reads; vm_compute; reflexivity).
  intros (c & X). apply C05_reads in X. vm_compute in X. discriminate.
Qed.
