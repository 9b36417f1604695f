(** Properties C01-C05. *)
From Coq Require Import Ascii String.
From Verif Require Import Base Str AmountModel AmountSpec AmountProofs.
Local Open Scope N_scope.

(** * C01: amount text round trip *)

Theorem C01_round_trip : forall a, u64 a -> amount_from_str (amount_display a) = Ok a.
Proof. exact amount_round_trip. Qed.
Print Assumptions C01_round_trip.
Example C01_round_trip_ex :
  u64 18446744073709551615 /\ amount_display 100 = lit "BF" /\ amount_display 0 = lit "aa" /\
  amount_from_str (lit "BF") = Ok 100.
Proof. vm_compute. repeat split; reflexivity. Qed.

Theorem C01_injective : forall a b, u64 a -> u64 b -> amount_display a = amount_display b -> a = b.
Proof. exact amount_display_injective. Qed.
Print Assumptions C01_injective.
Example C01_injective_ex : u64 256 /\ u64 1 /\ amount_display 256 <> amount_display 1.
Proof. vm_compute. repeat split; congruence. Qed.

Theorem C01_parse_sound : forall s a, amount_from_str s = Ok a ->
  u64 a /\ Forall (fun c => In c amount_letters) s /\ 5 * len s / 8 <= 8.
Proof. exact amount_from_str_sound. Qed.
Print Assumptions C01_parse_sound.
Example C01_parse_sound_ex : exists a, amount_from_str (lit "ZZZZZZZZZZZZZ") = Ok a.
Proof. eexists. vm_compute. reflexivity. Qed.

Theorem C01_parse_rejects : forall s,
  (Exists (fun c => ~ In c amount_letters) s \/ 8 < 5 * len s / 8) ->
  exists e, amount_from_str s = Err e.
Proof. exact amount_from_str_rejects. Qed.
Print Assumptions C01_parse_rejects.
Example C01_parse_rejects_ex :
  Exists (fun c => ~ In c amount_letters) (lit "ab1d") /\ 8 < 5 * len (lit "aaaaaaaaaaaaaaa") / 8.
Proof.
  split; [|vm_compute; reflexivity]. right. right. left. vm_compute. intuition discriminate.
Qed.

(** * C02: amount arithmetic *)

Theorem C02_checked : forall a b, u64 a -> u64 b ->
  (forall r, checked_add a b = Some r <-> r = a + b /\ u64 (a + b)) /\
  (checked_add a b = None <-> ~ u64 (a + b)) /\
  (forall r, checked_sub a b = Some r <-> r + b = a) /\
  (checked_sub a b = None <-> a < b).
Proof. exact checked_ops. Qed.
Print Assumptions C02_checked.

Theorem C02_assign : forall a b, u64 a -> u64 b ->
  (u64 (a + b) -> checked_add_assign a b = (a + b, Some tt)) /\
  (~ u64 (a + b) -> checked_add_assign a b = (a, None)) /\
  (b <= a -> checked_sub_assign a b = (a - b, Some tt)) /\
  (a < b -> checked_sub_assign a b = (a, None)).
Proof. exact assign_ops. Qed.
Print Assumptions C02_assign.

Theorem C02_saturating : forall a b, u64 a -> u64 b ->
  saturating_add a b = N.min (a + b) (2 ^ 64 - 1) /\
  saturating_sub a b = N.max a b - b /\
  saturating_add_assign a b = N.min (a + b) (2 ^ 64 - 1) /\
  saturating_sub_assign a b = N.max a b - b.
Proof. exact saturating_ops. Qed.
Print Assumptions C02_saturating.

Theorem C02_sum : forall l, amount_sum l = N.min (total l) (2 ^ 64 - 1).
Proof. exact sum_saturates. Qed.
Print Assumptions C02_sum.

Theorem C02_sum_order : forall l1 l2, Permutation l1 l2 -> amount_sum l1 = amount_sum l2.
Proof. exact sum_order_irrelevant. Qed.
Print Assumptions C02_sum_order.

Theorem C02_convert : forall p a, u64 a ->
  (forall r, checked_convert p a = Some r <-> r = a * 10 ^ decimals p /\ u64 r) /\
  saturating_convert p a = N.min (a * 10 ^ decimals p) (2 ^ 64 - 1) /\
  (forall E, @unchecked_convert E p a =
     if a * 10 ^ decimals p <=? 2 ^ 64 - 1 then Ok (a * 10 ^ decimals p) else Panic).
Proof. exact convert_ops. Qed.
Print Assumptions C02_convert.

(** Amounts made of whole units count so many atoms, or there is none. *)
Theorem C02_with_precision : forall p a, u64 a ->
  (forall r, with_precision_checked a p = Some r <-> r = a * 10 ^ decimals p /\ u64 r) /\
  (forall E, @with_precision E a p =
     if a * 10 ^ decimals p <=? 2 ^ 64 - 1 then Ok (a * 10 ^ decimals p) else Panic).
Proof. intros p a Ha. destruct (convert_ops p a Ha) as (C1 & _ & C3). exact (conj C1 C3). Qed.
Print Assumptions C02_with_precision.

(** Fractions of tokens are counted alike. *)
Theorem C02_fraction : forall a b, u64 a -> u64 b ->
  (forall r, fraction_checked_add a b = Some r <-> r = a + b /\ u64 (a + b)) /\
  (fraction_checked_add a b = None <-> ~ u64 (a + b)) /\
  (forall r, fraction_checked_sub a b = Some r <-> r + b = a) /\
  (fraction_checked_sub a b = None <-> a < b) /\
  (u64 (a + b) -> fraction_checked_add_assign a b = (a + b, Some tt)) /\
  (~ u64 (a + b) -> fraction_checked_add_assign a b = (a, None)) /\
  (b <= a -> fraction_checked_sub_assign a b = (a - b, Some tt)) /\
  (a < b -> fraction_checked_sub_assign a b = (a, None)) /\
  fraction_saturating_add a b = N.min (a + b) (2 ^ 64 - 1) /\
  fraction_saturating_sub a b = N.max a b - b /\
  fraction_saturating_add_assign a b = N.min (a + b) (2 ^ 64 - 1) /\
  fraction_saturating_sub_assign a b = N.max a b - b.
Proof.
  intros a b Ha Hb. destruct (checked_ops a b Ha Hb) as (A1 & A2 & A3 & A4). destruct (assign_ops a b Ha Hb) as (B1 & B2 & B3 & B4).
  destruct (saturating_ops a b Ha Hb) as (S1 & S2 & S3 & S4). repeat (split; [assumption|]). assumption.
Qed.
Print Assumptions C02_fraction.

Example C02_ex :
  u64 18446744073709551615 /\ u64 1 /\ checked_add 18446744073709551615 1 = None /\
  checked_add_assign 18446744073709551615 1 = (18446744073709551615, None) /\
  amount_sum [18446744073709551615; 5; 7] = 18446744073709551615 /\
  amount_sum [1; 2; 3] = 6 /\
  fraction_checked_sub_assign 5 7 = (5, None) /\ fraction_saturating_sub 5 7 = 0.
Proof. vm_compute. repeat split; reflexivity. Qed.

(** * C03: splitting by precision *)

Theorem C03_split : forall E a p, u64 a ->
  exists i f, @split E a p = Ok (i, f) /\ i * 10 ^ decimals p + f = a /\ f < 10 ^ decimals p.
Proof. exact @split_exact. Qed.
Print Assumptions C03_split.

Theorem C03_rounding : forall E a p, u64 a ->
  (exists q, @floor E a p = Ok q /\ is_floor a (10 ^ decimals p) q) /\
  (exists q, @ceil E a p = Ok q /\ is_ceil a (10 ^ decimals p) q) /\
  (exists q, @round E a p = Ok q /\ is_round_half_up a (10 ^ decimals p) q) /\
  (exists q, @rem E a p = Ok q /\ q = a mod 10 ^ decimals p).
Proof. exact @rounding_exact. Qed.
Print Assumptions C03_rounding.

(** The precisions are exactly 0..18 decimals. *)
Theorem C03_precisions : forall n p, precision_of_u8 n = Some p -> decimals p = n.
Proof. exact precision_of_u8_inv. Qed.
Print Assumptions C03_precisions.
Theorem C03_precisions_all : forall p, precision_of_u8 (decimals p) = Some p.
Proof. exact decimals_inv. Qed.
Print Assumptions C03_precisions_all.

Example C03_ex :
  u64 1000043608195 /\ @split unit 1000043608195 CentiMicro = Ok (10000, 43608195) /\
  @round unit 15 Deci = Ok 2 /\ @round unit 14 Deci = Ok 1 /\ @ceil unit 11 Deci = Ok 2.
Proof. vm_compute. repeat split; reflexivity. Qed.

(** * C04: coin amounts recombine *)

Theorem C04_new_recombines : forall E F a p, u64 a ->
  exists c, @coin_new E a p = Ok c /\ ca_precision c = p /\
    ca_int c * 10 ^ decimals p + ca_fract c = a /\ ca_fract c < 10 ^ decimals p /\
    @to_amount_unchecked F c = Ok a.
Proof. exact @coin_new_recombines. Qed.
Print Assumptions C04_new_recombines.

Theorem C04_with : forall i f p, u64 i -> u64 f ->
  (forall c, coin_with i f p = Ok c <->
     f < 10 ^ decimals p /\ c = {| ca_int := i; ca_fract := f; ca_precision := p |}) /\
  (coin_with i f p = Err PrecisionErr <-> 10 ^ decimals p <= f) /\
  coin_with i f p <> Panic.
Proof. exact coin_with_accepts. Qed.
Print Assumptions C04_with.

(** The conversion is exact when the result fits; the full property asks for an error otherwise,
    but the code panics. *)
Theorem C04_to_amount_partial : forall E c,
  (u64 (ca_int c * 10 ^ decimals (ca_precision c) + ca_fract c) ->
     @to_amount_unchecked E c = Ok (ca_int c * 10 ^ decimals (ca_precision c) + ca_fract c)) /\
  (~ u64 (ca_int c * 10 ^ decimals (ca_precision c) + ca_fract c) ->
     @to_amount_unchecked E c = Panic).
Proof. exact @coin_to_amount_partial. Qed.
Print Assumptions C04_to_amount_partial.

(** Full property: no accepted coin amount makes the conversion panic.  Refuted. *)
Theorem C04_no_panic_refuted :
  ~ (forall i f p c, u64 i -> u64 f -> coin_with i f p = Ok c ->
       @to_amount_unchecked PrecisionError c <> Panic).
Proof.
  intros H. apply (H 18446744073709551615 5 Deci {| ca_int := 18446744073709551615; ca_fract := 5; ca_precision := Deci |});
    vm_compute; reflexivity.
Qed.
Print Assumptions C04_no_panic_refuted.

Example C04_ex : u64 1234567 /\ @coin_new unit 1234567 Milli =
    Ok {| ca_int := 1234; ca_fract := 567; ca_precision := Milli |} /\
  (exists c, coin_with 7 99 Centi = Ok c) /\ coin_with 7 100 Centi = Err PrecisionErr.
Proof. vm_compute. repeat split; try reflexivity. eexists; reflexivity. Qed.

(** * C05: coin amount text *)

(** Alternate form: for a precision of at least one decimal the text consists of the integer
    part, a dot and the fraction padded to the precision, up to separators; it parses back. *)
Theorem C05_alternate_round_trip_partial : forall E fill c, separator fill -> u64 (ca_int c) ->
  0 < decimals (ca_precision c) -> ca_fract c < 10 ^ decimals (ca_precision c) ->
  exists s, @coin_display E true fill c = Ok s /\ coin_from_str s = Ok c /\
    exists I F, unseparated s (I ++ "."%char :: F) /\ decimal I (ca_int c) /\
                decimal F (ca_fract c) /\ len F = decimals (ca_precision c).
Proof. exact @coin_alt_round_trip. Qed.
Print Assumptions C05_alternate_round_trip_partial.

(** Plain form: the text always denotes the coin amount ... *)
Theorem C05_plain_denotes : forall E fill c, separator fill ->
  ca_fract c < 10 ^ decimals (ca_precision c) ->
  exists s, @coin_display E false fill c = Ok s /\
    exists I P, decimal I (ca_int c) /\ decimal P (decimals (ca_precision c)) /\
      ((ca_fract c = 0 /\ s = I ++ "~"%char :: P) \/
       (exists F m, s = I ++ "."%char :: F ++ "~"%char :: P /\ decimal F m /\ m mod 10 <> 0 /\
            len F <= decimals (ca_precision c) /\
            ca_fract c = m * 10 ^ (decimals (ca_precision c) - len F))).
Proof. exact @coin_plain_denotes. Qed.
Print Assumptions C05_plain_denotes.

(** ... but it parses back only when the fraction's last digit is not zero. *)
Theorem C05_plain_round_trip_partial : forall c s, u64 (ca_int c) ->
  ca_fract c < 10 ^ decimals (ca_precision c) ->
  @coin_display AmountParseError false " "%char c = Ok s ->
  (coin_from_str s = Ok c <-> ca_fract c mod 10 <> 0).
Proof. exact coin_plain_round_trip. Qed.
Print Assumptions C05_plain_round_trip_partial.

Theorem C05_parse_never_panics : forall s, coin_from_str s <> Panic.
Proof. exact coin_from_str_no_panic. Qed.
Print Assumptions C05_parse_never_panics.

(** Full property: refuted; the re-read amount is silently a different one. *)
Theorem C05_round_trip_refuted :
  ~ (forall a p c s, u64 a -> @coin_new AmountParseError a p = Ok c ->
       @coin_display AmountParseError false " "%char c = Ok s -> coin_from_str s = Ok c).
Proof.
  intros H.
  specialize (H 1000000500 CentiMicro _ (lit "10.000005~8") eq_refl eq_refl eq_refl).
  vm_compute in H. discriminate.
Qed.
Print Assumptions C05_round_trip_refuted.

(** Full property: formatting never panics.  Refuted for indivisible amounts in alternate form,
    and for what the parser itself returns. *)
Theorem C05_display_no_panic_refuted :
  (forall a, exists c, @coin_new AmountParseError a Indivisible = Ok c /\
       @coin_display AmountParseError true " "%char c = Panic) /\
  (exists s c, coin_from_str s = Ok c /\ @coin_display AmountParseError false " "%char c = Panic).
Proof.
  split.
  - intros a. destruct (@coin_new AmountParseError a Indivisible) as [c| |] eqn:H;
      unfold coin_new in H; rewrite split_val in H; cbn [rbind] in H; try discriminate.
    exists c. split; [reflexivity|]. inversion H. apply coin_alt_indivisible_panics. reflexivity.
  - exists (lit "1.5~0"). eexists. split; vm_compute; reflexivity.
Qed.
Print Assumptions C05_display_no_panic_refuted.

Example C05_ex :
  let c := {| ca_int := 10000; ca_fract := 43608195; ca_precision := CentiMicro |} in
  separator " "%char /\ u64 (ca_int c) /\ 0 < decimals (ca_precision c) /\
  ca_fract c < 10 ^ decimals (ca_precision c) /\
  @coin_display unit true " "%char c = Ok (lit "10 000.43 608 195") /\
  @coin_display unit false " "%char c = Ok (lit "10000.43608195~8").
Proof. cbv zeta. split; [left; reflexivity|]. vm_compute. repeat split; reflexivity. Qed.
