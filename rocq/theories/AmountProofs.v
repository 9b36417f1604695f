(** Lemmas about AmountModel. *)
From Coq Require Import Ascii String.
From Verif Require Import Base Str AmountModel AmountSpec.
Local Open Scope N_scope.

Lemma U64MAX_val : U64MAX = 2 ^ 64 - 1.
Proof. reflexivity. Qed.

Lemma u64_le n : u64 n <-> n <= U64MAX.
Proof. unfold u64. rewrite U64MAX_val. assert (2 ^ 64 = 18446744073709551616) by reflexivity. lia. Qed.

Lemma multiplier_pow p : multiplier p = 10 ^ decimals p.
Proof. destruct p; reflexivity. Qed.

Lemma decimals_le p : decimals p <= 18.
Proof. destruct p; simpl; lia. Qed.

Lemma decimals_inv p : precision_of_u8 (decimals p) = Some p.
Proof. destruct p; reflexivity. Qed.

Lemma precision_of_u8_inv n p : precision_of_u8 n = Some p -> decimals p = n.
Proof.
  unfold precision_of_u8. intros H.
  repeat match type of H with
  | match ?x with _ => _ end = _ => destruct x; try discriminate
  end; inversion H; reflexivity.
Qed.

Lemma mult_bounds p : 1 <= multiplier p <= 1000000000000000000.
Proof. destruct p; simpl; lia. Qed.

(** ** Arithmetic *)

Lemma sat_add_min a b : saturating_add a b = N.min (a + b) U64MAX.
Proof. unfold saturating_add, saturating_add64. destruct (a + b <=? U64MAX) eqn:E; lia. Qed.

Lemma sum_from acc l : acc <= U64MAX ->
  fold_left saturating_add l acc = N.min (acc + total l) U64MAX.
Proof.
  revert acc; induction l as [|a l IH]; intros acc H; simpl; [lia|].
  rewrite IH; rewrite sat_add_min; lia.
Qed.

Lemma amount_sum_min l : amount_sum l = N.min (total l) U64MAX.
Proof. unfold amount_sum. rewrite sum_from; unfold U64MAX; lia. Qed.

Lemma total_perm l1 l2 : Permutation l1 l2 -> total l1 = total l2.
Proof. induction 1; simpl; lia. Qed.

(** ** Splitting *)

Lemma floor_val {E} a p : @floor E a p = Ok (a / multiplier p).
Proof.
  unfold floor, div64. pose proof (mult_bounds p).
  destruct (a =? 0) eqn:E0.
  - apply N.eqb_eq in E0; subst. rewrite N.div_0_l by lia. reflexivity.
  - destruct (multiplier p =? 0) eqn:E1; [lia|reflexivity].
Qed.

Lemma rem_val {E} a p : @rem E a p = Ok (a mod multiplier p).
Proof.
  unfold rem, rem64. pose proof (mult_bounds p). destruct (multiplier p =? 0) eqn:E1; [lia|reflexivity].
Qed.

Lemma split_val {E} a p : @split E a p = Ok (a / multiplier p, a mod multiplier p).
Proof. unfold split. rewrite floor_val, rem_val. reflexivity. Qed.

Lemma div_le_self a b : 1 <= b -> a / b <= a.
Proof. intros H. apply N.div_le_upper_bound; [lia|]. nia. Qed.

Lemma round_val {E} a p : a <= U64MAX ->
  @round E a p = Ok (a / multiplier p + 2 * (a mod multiplier p) / multiplier p).
Proof.
  intros Ha. unfold round. rewrite rem_val. pose proof (mult_bounds p) as Hm.
  set (m := multiplier p) in *. destruct (a =? 0) eqn:E0.
  - apply N.eqb_eq in E0; subst. rewrite N.div_0_l, N.mod_0_l by lia.
    rewrite N.mul_0_r, N.div_0_l by lia. reflexivity.
  - cbn [rbind]. pose proof (N.mod_lt a m ltac:(lia)).
    unfold mul64. destruct (2 * (a mod m) <=? U64MAX) eqn:E1; [|unfold U64MAX in *; lia].
    cbn [rbind]. unfold div64. destruct (m =? 0) eqn:E2; [lia|]. cbn [rbind].
    unfold add64. destruct (a / m + 2 * (a mod m) / m <=? U64MAX) eqn:E3; [reflexivity|].
    exfalso. assert (2 * (a mod m) / m < 2) by (apply N.div_lt_upper_bound; lia).
    destruct (N.eq_dec m 1) as [X|X].
    + rewrite X in *. rewrite N.mod_1_r in *. rewrite N.div_1_r in *. simpl in *.
      replace (2 * 0 / 1) with 0 in * by reflexivity. lia.
    + assert (a / m <= a / 2) by (apply N.div_le_compat_l; lia).
      assert (a / 2 <= U64MAX / 2) by (apply N.div_le_mono; lia).
      assert (U64MAX / 2 + 1 <= U64MAX) by (vm_compute; congruence). lia.
Qed.

Lemma ceil_val {E} a p : a <= U64MAX ->
  @ceil E a p = Ok (a / multiplier p + (if 0 <? a mod multiplier p then 1 else 0)).
Proof.
  intros Ha. unfold ceil. rewrite rem_val. pose proof (mult_bounds p) as Hm.
  set (m := multiplier p) in *. destruct (a =? 0) eqn:E0.
  - apply N.eqb_eq in E0; subst. rewrite N.div_0_l, N.mod_0_l by lia. reflexivity.
  - cbn [rbind]. unfold div64. destruct (m =? 0) eqn:E2; [lia|]. cbn [rbind].
    unfold add64.
    destruct (a / m + (if 0 <? a mod m then 1 else 0) <=? U64MAX) eqn:E3; [reflexivity|].
    exfalso. destruct (0 <? a mod m) eqn:E4.
    + pose proof (N.div_mod a m ltac:(lia)) as D.
      destruct (N.eq_dec m 1) as [X|X]; [rewrite X, N.mod_1_r in E4; lia|].
      assert (a / m < a) by (apply N.div_lt; lia). lia.
    + assert (a / m <= a) by (apply div_le_self; lia). lia.
Qed.

Lemma is_ceil_val a m : 1 <= m -> is_ceil a m (a / m + (if 0 <? a mod m then 1 else 0)).
Proof.
  intros Hm. unfold is_ceil. pose proof (N.div_mod a m ltac:(lia)) as D.
  pose proof (N.mod_lt a m ltac:(lia)) as L.
  destruct (0 <? a mod m) eqn:E.
  - split; [nia|]. intros q' Hq. assert (a / m < q'); [|lia].
    apply N.div_lt_upper_bound; [lia|]. apply N.ltb_lt in E.
    destruct (N.eq_dec a (q' * m)) as [X|X]; [|nia].
    rewrite X in E. rewrite N.mod_mul in E by lia. lia.
  - apply N.ltb_ge in E. split; [nia|]. intros q' Hq. assert (a / m <= q'); [|lia].
    apply N.div_le_upper_bound; [lia|]. nia.
Qed.

Lemma is_round_val a m : 1 <= m -> is_round_half_up a m (a / m + 2 * (a mod m) / m).
Proof.
  intros Hm. unfold is_round_half_up. pose proof (N.div_mod a m ltac:(lia)) as D.
  pose proof (N.mod_lt a m ltac:(lia)) as L.
  pose proof (N.div_mod (2 * (a mod m)) m ltac:(lia)) as D2.
  pose proof (N.mod_lt (2 * (a mod m)) m ltac:(lia)) as L2.
  set (q := a / m) in *. set (r := a mod m) in *. set (i := 2 * r / m) in *.
  assert (i < 2) by (apply N.div_lt_upper_bound; lia).
  assert (Hi : i = 0 \/ i = 1) by lia. destruct Hi as [-> | ->]; nia.
Qed.

(** ** Bits *)

Lemma of_bits_from_to_bits k acc n : of_bits_from acc (to_bits k n) = acc * 2 ^ N.of_nat k + n mod 2 ^ N.of_nat k.
Proof.
  revert acc; induction k as [|k IH]; intros acc; cbn [to_bits of_bits_from].
  - rewrite N.pow_0_r, N.mod_1_r. lia.
  - rewrite IH. rewrite Nat2N.inj_succ. rewrite !N.pow_succ_r'.
    assert (N.b2n (N.testbit n (N.of_nat k)) = (n / 2 ^ N.of_nat k) mod 2) as ->
      by apply N.testbit_spec'.
    assert (P : 2 ^ N.of_nat k <> 0) by (apply N.pow_nonzero; lia).
    rewrite (N.mul_comm 2 (2 ^ N.of_nat k)). rewrite (N.mod_mul_r n) by lia. lia.
Qed.

Lemma of_bits_to_bits8 n : n < 256 -> of_bits (to_bits 8 n) = n.
Proof.
  intros H. unfold of_bits. rewrite of_bits_from_to_bits. rewrite N.mul_0_l, N.add_0_l.
  apply N.mod_small. exact H.
Qed.

Lemma of_bits_from_bound acc l : of_bits_from acc l < (acc + 1) * 2 ^ len l.
Proof.
  unfold len. revert acc; induction l as [|b l IH]; intros acc; cbn [of_bits_from length].
  - simpl. rewrite N.pow_0_r. lia.
  - specialize (IH (2 * acc + N.b2n b)). rewrite Nat2N.inj_succ, N.pow_succ_r'.
    destruct b; simpl N.b2n in *; nia.
Qed.

Lemma length_to_bits k n : length (to_bits k n) = k.
Proof. induction k; simpl; congruence. Qed.

Lemma list_5_ind (P : list bool -> Prop) :
  P [] -> (forall a, P [a]) -> (forall a b, P [a; b]) -> (forall a b c, P [a; b; c]) ->
  (forall a b c d, P [a; b; c; d]) ->
  (forall a b c d e r, P r -> P (a :: b :: c :: d :: e :: r)) -> forall l, P l.
Proof.
  intros H0 H1 H2 H3 H4 H5.
  fix F 1. intros [|a [|b [|c [|d [|e r]]]]];
    [exact H0|apply H1|apply H2|apply H3|apply H4|apply H5; apply F].
Qed.

Lemma groups5_spec l : exists pad, concat (groups5 l) = l ++ pad /\ (length pad < 5)%nat /\
  Forall (fun g => exists a b c d e, g = [a; b; c; d; e]) (groups5 l) /\
  (5 * length (groups5 l) = length l + length pad)%nat.
Proof.
  induction l as [| | | | |a b c d e r IH] using list_5_ind.
  - exists []. simpl. repeat split; auto; lia.
  - exists [false; false; false; false]. simpl.
    repeat split; try lia. constructor; [|constructor]. do 5 eexists; reflexivity.
  - exists [false; false; false]. simpl.
    repeat split; try lia. constructor; [|constructor]. do 5 eexists; reflexivity.
  - exists [false; false]. simpl.
    repeat split; try lia. constructor; [|constructor]. do 5 eexists; reflexivity.
  - exists [false]. simpl.
    repeat split; try lia. constructor; [|constructor]. do 5 eexists; reflexivity.
  - destruct IH as (pad & H1 & H2 & H3 & H4). exists pad.
    cbn [groups5 concat length]. rewrite H1. split; [reflexivity|]. split; [exact H2|]. split.
    + constructor; [|exact H3]. do 5 eexists; reflexivity.
    + lia.
Qed.

Lemma groups8_app bytes pad : (length pad < 8)%nat ->
  groups8 (flat_map (to_bits 8) bytes ++ pad) = map (to_bits 8) bytes.
Proof.
  intros H. induction bytes as [|b bytes IH].
  - simpl. do 8 (destruct pad as [|? pad]; [reflexivity|]). simpl in H. lia.
  - cbn [flat_map map]. rewrite <- app_assoc.
    remember (to_bits 8 b) as x eqn:Ex.
    assert (Hx : length x = 8%nat) by (subst; apply length_to_bits).
    do 8 (destruct x as [|? x]; [discriminate|]). destruct x; [|discriminate].
    simpl. f_equal. exact IH.
Qed.

Lemma letter_index_letter a b c d e :
  option_map (to_bits 5) (letter_index (letter (of_bits [a; b; c; d; e]))) = Some [a; b; c; d; e].
Proof. destruct a, b, c, d, e; vm_compute; reflexivity. Qed.

Lemma letters_of_groups gs :
  Forall (fun g => exists a b c d e, g = [a; b; c; d; e]) gs ->
  exists l, letters_index (map (fun g => letter (of_bits g)) gs) = Some l /\
            flat_map (to_bits 5) l = concat gs.
Proof.
  induction 1 as [|g gs (a & b & c & d & e & ->) _ (l & H1 & H2)].
  - exists []. split; reflexivity.
  - cbn [map letters_index].
    pose proof (letter_index_letter a b c d e) as X.
    destruct (letter_index (letter (of_bits [a; b; c; d; e]))) as [i|]; [|discriminate].
    cbn [option_map] in X.
    assert (X2 : to_bits 5 i = [a; b; c; d; e]) by congruence.
    exists (i :: l). rewrite H1. split; [reflexivity|]. cbn [flat_map]. rewrite H2.
    rewrite X2. reflexivity.
Qed.

Lemma base32_round_trip bytes : Forall (fun b => b < 256) bytes ->
  base32_decode (base32_encode bytes) = Ok bytes.
Proof.
  intros Hb. unfold base32_decode, base32_encode.
  destruct (groups5_spec (flat_map (to_bits 8) bytes)) as (pad & H1 & H2 & H3 & H4).
  set (gs := groups5 (flat_map (to_bits 8) bytes)) in *.
  assert (Hlen : length (flat_map (to_bits 8) bytes) = (8 * length bytes)%nat).
  { clear. induction bytes as [|b l IH]; [reflexivity|].
    cbn [flat_map length]. rewrite app_length, IH, length_to_bits. lia. }
  assert (Hmod : (len (map (fun g => letter (of_bits g)) gs) mod 8 =? 1) ||
                 (len (map (fun g => letter (of_bits g)) gs) mod 8 =? 3) ||
                 (len (map (fun g => letter (of_bits g)) gs) mod 8 =? 6) = false).
  { unfold len. rewrite map_length. rewrite Hlen in H4.
    remember (N.of_nat (length gs)) as g. remember (N.of_nat (length bytes)) as n.
    remember (N.of_nat (length pad)) as q.
    assert (5 * g = 8 * n + q) by lia. assert (q < 5) by lia.
    pose proof (N.div_mod g 8 ltac:(lia)) as D. pose proof (N.mod_lt g 8 ltac:(lia)).
    remember (g mod 8) as r. remember (g / 8) as t.
    apply orb_false_iff; split; [apply orb_false_iff; split|]; apply N.eqb_neq; intros X; subst r; lia. }
  rewrite Hmod. destruct (letters_of_groups gs H3) as (l & L1 & L2). rewrite L1, L2, H1.
  rewrite groups8_app by lia. f_equal. rewrite map_map.
  clear - Hb. induction Hb as [|b l Hb _ IH]; [reflexivity|].
  cbn [map]. rewrite IH, of_bits_to_bits8 by exact Hb. reflexivity.
Qed.

(** ** Little-endian bytes *)

Lemma to_le_bytes_bound k n : Forall (fun b => b < 256) (to_le_bytes k n).
Proof.
  revert n; induction k as [|k IH]; intros n; simpl; constructor; auto.
  apply N.mod_lt; lia.
Qed.

Lemma from_to_le k n : n < 256 ^ N.of_nat k -> from_le_bytes (to_le_bytes k n) = n.
Proof.
  revert n; induction k as [|k IH]; intros n H; cbn [to_le_bytes from_le_bytes].
  - rewrite N.pow_0_r in H. lia.
  - rewrite Nat2N.inj_succ, N.pow_succ_r' in H. rewrite IH.
    + pose proof (N.div_mod n 256 ltac:(lia)). lia.
    + apply N.div_lt_upper_bound; lia.
Qed.

Lemma from_le_trim l : from_le_bytes (trim_zero_bytes l) = from_le_bytes l.
Proof.
  induction l as [|b l IH]; [reflexivity|]. cbn [trim_zero_bytes from_le_bytes].
  destruct (trim_zero_bytes l) as [|x t] eqn:E.
  - cbn [from_le_bytes] in IH. destruct (b =? 0) eqn:Eb; cbn [from_le_bytes]; lia.
  - cbn [from_le_bytes] in *. rewrite IH. reflexivity.
Qed.

Lemma trim_nil_zero l : trim_zero_bytes l = [] -> from_le_bytes (firstn 1 l) = 0.
Proof.
  destruct l as [|b l]; [reflexivity|]. cbn [trim_zero_bytes firstn from_le_bytes].
  destruct (trim_zero_bytes l); [|congruence].
  destruct (b =? 0) eqn:E; [|congruence]. intros _. lia.
Qed.

Lemma from_le_significant l : from_le_bytes (significant_bytes l) = from_le_bytes l.
Proof.
  unfold significant_bytes. destruct (trim_zero_bytes l) as [|x t] eqn:E.
  - rewrite trim_nil_zero by exact E. rewrite <- from_le_trim, E. reflexivity.
  - rewrite <- E. apply from_le_trim.
Qed.

Lemma trim_incl l x : In x (trim_zero_bytes l) -> In x l.
Proof.
  induction l as [|b l IH]; [tauto|]. cbn [trim_zero_bytes].
  destruct (trim_zero_bytes l) as [|y t].
  - destruct (b =? 0); [simpl; tauto|]. intros [X|[]]; left; exact X.
  - intros [X|X]; [left; exact X|right; auto].
Qed.

Lemma trim_length l : (length (trim_zero_bytes l) <= length l)%nat.
Proof.
  induction l as [|b l IH]; [simpl; lia|]. cbn [trim_zero_bytes].
  destruct (trim_zero_bytes l) as [|y t]; [destruct (b =? 0); simpl; lia|simpl in *; lia].
Qed.

Lemma significant_spec l P : Forall P l -> Forall P (significant_bytes l) /\
  (length (significant_bytes l) <= length l)%nat.
Proof.
  intros H. rewrite Forall_forall in H. unfold significant_bytes.
  pose proof (trim_incl l) as Hi. pose proof (trim_length l) as Hl.
  destruct (trim_zero_bytes l) as [|x t] eqn:E.
  - split; [|apply firstn_le_length || (rewrite firstn_length; lia)].
    apply Forall_forall. intros y Hy. apply H. destruct l as [|z l]; [destruct Hy|].
    simpl in Hy. destruct Hy as [->|[]]. left; reflexivity.
  - split; [|lia]. apply Forall_forall. intros y Hy. auto.
Qed.

Lemma length_to_le k n : length (to_le_bytes k n) = k.
Proof. revert n; induction k; intros; simpl; congruence. Qed.

Lemma amount_round_trip a : u64 a -> amount_from_str (amount_display a) = Ok a.
Proof.
  intros H. unfold amount_from_str, amount_display.
  destruct (significant_spec (to_le_bytes 8 a) _ (to_le_bytes_bound 8 a)) as [H1 H2].
  rewrite base32_round_trip by exact H1. cbn [rbind].
  rewrite length_to_le in H2.
  destruct (8 <? len (significant_bytes (to_le_bytes 8 a))) eqn:E.
  { unfold len in E. apply N.ltb_lt in E. lia. }
  rewrite from_le_significant, from_to_le by exact H. reflexivity.
Qed.

Lemma from_le_bound l : Forall (fun b => b < 256) l -> from_le_bytes l < 256 ^ len l.
Proof.
  unfold len. induction 1 as [|b l Hb _ IH]; cbn [from_le_bytes length]; [rewrite N.pow_0_r; lia|].
  rewrite Nat2N.inj_succ, N.pow_succ_r'. nia.
Qed.

Lemma groups8_bytes l : Forall (fun b => b < 256) (map of_bits (groups8 l)).
Proof.
  assert (H : forall n l, (length l <= n)%nat -> Forall (fun b => b < 256) (map of_bits (groups8 l))).
  { induction n as [|n IH]; intros l' Hl.
    - destruct l'; [constructor|simpl in Hl; lia].
    - do 8 (destruct l' as [|? l']; [constructor|]).
      cbn [groups8 map]. constructor; [|apply IH; simpl in Hl; lia].
      match goal with |- of_bits ?x < _ => pose proof (of_bits_from_bound 0 x) as B end.
      exact B. }
  apply (H (length l)). lia.
Qed.

Lemma groups8_length l : length (groups8 l) = (length l / 8)%nat.
Proof.
  assert (H : forall n l, (length l <= n)%nat -> length (groups8 l) = (length l / 8)%nat).
  { induction n as [|n IH]; intros l' Hl.
    - destruct l'; [reflexivity|simpl in Hl; lia].
    - do 8 (destruct l' as [|? l']; [reflexivity|]).
      cbn [groups8 length]. rewrite IH by (simpl in Hl; lia).
      change (S (S (S (S (S (S (S (S (length l')))))))))  with (8 + length l')%nat.
      replace (8 + length l')%nat with (length l' + 1 * 8)%nat by lia.
      rewrite Nat.div_add by lia. lia. }
  apply (H (length l)). lia.
Qed.

Lemma letters_index_spec s l : letters_index s = Some l ->
  length l = length s /\ Forall (fun c => letter_index c <> None) s.
Proof.
  revert l; induction s as [|c s IH]; intros l; simpl.
  - intros X; inversion X; subst. auto.
  - destruct (letter_index c) as [i|] eqn:E; [|congruence].
    destruct (letters_index s) as [l'|]; [|congruence].
    intros X; inversion X; subst. destruct (IH _ eq_refl) as [H1 H2].
    simpl. split; [congruence|]. constructor; [congruence|exact H2].
Qed.

Lemma letters_index_None s : letters_index s = None -> Exists (fun c => letter_index c = None) s.
Proof.
  induction s as [|c s IH]; simpl; [congruence|].
  destruct (letter_index c) as [i|] eqn:E; [|left; exact E].
  destruct (letters_index s); [congruence|]. right; auto.
Qed.

Lemma index_of_None c l : index_of c l = None <-> ~ In c l.
Proof.
  induction l as [|x l IH]; simpl; [tauto|].
  destruct (is_char c x) eqn:E.
  - apply is_char_eq in E; subst. split; [congruence|tauto].
  - apply is_char_false in E. destruct (index_of c l); simpl; split; try congruence.
    + intros H. exfalso. assert (X : Some n = None) by (apply IH; tauto). congruence.
    + intros _. assert (~ In c l) by (apply IH; reflexivity). intros [Y|Y]; [congruence|tauto].
Qed.

Lemma base32_decode_sound s l : base32_decode s = Ok l ->
  Forall (fun c => In c amount_letters) s /\ Forall (fun b => b < 256) l /\ len l = 5 * len s / 8.
Proof.
  unfold base32_decode. destruct (_ || _); [congruence|].
  destruct (letters_index s) as [il|] eqn:E; [|congruence].
  intros X; apply Ok_inj in X; subst l. apply letters_index_spec in E as [E1 E2].
  split; [|split].
  - eapply Forall_impl; [|exact E2]. simpl. intros c Hc.
    destruct (in_dec ascii_dec c amount_letters) as [Y|Y]; [exact Y|].
    exfalso. apply Hc. apply index_of_None. exact Y.
  - apply groups8_bytes.
  - unfold len. rewrite map_length, groups8_length.
    assert (Hf : length (flat_map (to_bits 5) il) = (5 * length il)%nat).
    { clear. induction il as [|b l IH]; [reflexivity|].
      cbn [flat_map length]. rewrite app_length, IH, length_to_bits. lia. }
    rewrite Hf, E1. rewrite Nat2N.inj_div, Nat2N.inj_mul. reflexivity.
Qed.

Lemma amount_from_str_sound s a : amount_from_str s = Ok a ->
  u64 a /\ Forall (fun c => In c amount_letters) s /\ 5 * len s / 8 <= 8.
Proof.
  unfold amount_from_str. destruct (base32_decode s) as [l| |] eqn:E; cbn [rbind]; try congruence.
  apply base32_decode_sound in E as (E1 & E2 & E3).
  destruct (8 <? len l) eqn:E4; [congruence|]. apply N.ltb_ge in E4.
  intros X; inversion X; subst. split; [|split; [exact E1|lia]].
  unfold u64. pose proof (from_le_bound l E2). change (2 ^ 64) with (256 ^ 8).
  pose proof (N.pow_le_mono_r 256 (len l) 8 ltac:(lia) E4). lia.
Qed.

Lemma amount_from_str_no_panic s : amount_from_str s <> Panic.
Proof.
  unfold amount_from_str, base32_decode. destruct (_ || _); [simpl; congruence|].
  destruct (letters_index s); cbn [rbind]; [|congruence].
  destruct (8 <? _); congruence.
Qed.

Lemma amount_from_str_rejects s :
  (Exists (fun c => ~ In c amount_letters) s \/ 8 < 5 * len s / 8) ->
  exists e, amount_from_str s = Err e.
Proof.
  intros H. destruct (amount_from_str s) as [a|e|] eqn:E; [exfalso|eauto|].
  - apply amount_from_str_sound in E as (_ & E1 & E2).
    destruct H as [H|H]; [|lia]. rewrite Exists_exists in H. rewrite Forall_forall in E1.
    destruct H as (c & Hc & Hn). auto.
  - exfalso. exact (amount_from_str_no_panic s E).
Qed.

(** ** Coin amounts *)

Lemma pow10_64_ok {E} p : @pow10_64 E (decimals p) = Ok (10 ^ decimals p).
Proof. destruct p; reflexivity. Qed.

Lemma coin_with_val i f p : coin_with i f p =
  if 10 ^ decimals p <=? f then Err PrecisionErr
  else Ok {| ca_int := i; ca_fract := f; ca_precision := p |}.
Proof. unfold coin_with. rewrite pow10_64_ok. reflexivity. Qed.

Lemma to_amount_val {E} c : @to_amount_unchecked E c =
  if ca_int c * 10 ^ decimals (ca_precision c) + ca_fract c <=? U64MAX
  then Ok (ca_int c * 10 ^ decimals (ca_precision c) + ca_fract c) else Panic.
Proof.
  unfold to_amount_unchecked. rewrite pow10_64_ok. cbn [rbind]. unfold checked_mul64.
  destruct (_ * _ <=? U64MAX) eqn:E1; cbn [expect rbind].
  - unfold checked_add64. destruct (_ + _ <=? U64MAX); reflexivity.
  - destruct (_ + _ <=? U64MAX) eqn:E2; [|reflexivity]. lia.
Qed.

(** *** Text *)

Lemma chunks3_concat s : concat (chunks3 s) = s /\ Forall (fun c => c <> []) (chunks3 s).
Proof.
  assert (H : forall n s, (length s <= n)%nat ->
            concat (chunks3 s) = s /\ Forall (fun c => c <> []) (chunks3 s)).
  { induction n as [|n IH]; intros s' Hl.
    - destruct s'; [split; constructor|simpl in Hl; lia].
    - destruct s' as [|a [|b [|c r]]]; simpl; try (split; [reflexivity|repeat constructor; congruence]).
      destruct (IH r) as [I1 I2]; [simpl in Hl; lia|].
      rewrite I1. split; [reflexivity|]. constructor; [congruence|exact I2]. }
  apply (H (length s)). lia.
Qed.

Definition notsep (c : ascii) : bool := negb (is_char c " "%char || is_char c "_"%char).

Lemma filter_join f sep l : (forall c, In c sep -> f c = false) ->
  filter f (join sep l) = concat (map (filter f) l).
Proof.
  intros H. induction l as [|a l IH]; [reflexivity|].
  destruct l as [|b l].
  - simpl. rewrite app_nil_r. reflexivity.
  - change (join sep (a :: b :: l)) with (a ++ sep ++ join sep (b :: l)).
    rewrite !filter_app, IH. change (map (filter f) (a :: b :: l)) with (filter f a :: map (filter f) (b :: l)).
    cbn [concat]. f_equal.
    assert (filter f sep = []) as ->; [|reflexivity].
    clear - H. induction sep as [|x s IH]; [reflexivity|]. simpl.
    rewrite H by (left; reflexivity). apply IH. intros c Hc. apply H. right; exact Hc.
Qed.

Lemma concat_filter {A} (f : A -> bool) l : concat (map (filter f) l) = filter f (concat l).
Proof. induction l as [|a l IH]; [reflexivity|]. simpl. rewrite IH, filter_app. reflexivity. Qed.

Lemma rev_concat_rev {A} (l : list (list A)) : concat (rev (map (@rev A) l)) = rev (concat l).
Proof.
  induction l as [|a l IH]; [reflexivity|]. simpl.
  rewrite concat_app, IH, rev_app_distr. simpl. rewrite app_nil_r. reflexivity.
Qed.

Lemma to_chunks_filter fill s : notsep fill = false ->
  filter notsep (to_chunks fill s) = filter notsep s.
Proof.
  intros H. unfold to_chunks. rewrite filter_join.
  - rewrite concat_filter, rev_concat_rev, (proj1 (chunks3_concat (rev s))), rev_involutive. reflexivity.
  - intros c [<-|[]]. exact H.
Qed.

Lemma filter_id {A} (f : A -> bool) l : Forall (fun x => f x = true) l -> filter f l = l.
Proof. induction 1 as [|x l H _ IH]; [reflexivity|]. simpl. rewrite H, IH. reflexivity. Qed.

Lemma digit_notsep c : is_digit c = true -> notsep c = true.
Proof.
  intros H. unfold notsep. destruct (is_char c " "%char) eqn:E1.
  - apply is_char_eq in E1; subst; discriminate.
  - destruct (is_char c "_"%char) eqn:E2; [apply is_char_eq in E2; subst; discriminate|reflexivity].
Qed.

Lemma digits_notsep s : Forall (fun c => is_digit c = true) s -> filter notsep s = s.
Proof. intros H. apply filter_id. eapply Forall_impl; [|exact H]. apply digit_notsep. Qed.

Lemma digits_no c s : is_digit c = false -> Forall (fun c => is_digit c = true) s -> ~ In c s.
Proof. intros Hc H Hin. rewrite Forall_forall in H. apply H in Hin. congruence. Qed.

Lemma zeros_digits k : Forall (fun c => is_digit c = true) (repeat "0"%char k).
Proof. induction k; simpl; constructor; auto. Qed.

Lemma zeros_value k s : dec_value (repeat "0"%char k ++ s) = dec_value s.
Proof. unfold dec_value. induction k as [|k IH]; [reflexivity|]. simpl. exact IH. Qed.

Definition padded (d n : N) : str := repeat "0"%char (N.to_nat (d - len (dec_print n))) ++ dec_print n.

Lemma padded_digits d n : Forall (fun c => is_digit c = true) (padded d n).
Proof. apply Forall_app; split; [apply zeros_digits|apply dec_print_digits]. Qed.

Lemma padded_value d n : dec_value (padded d n) = Some n.
Proof. unfold padded. rewrite zeros_value. apply dec_value_print. Qed.

Lemma padded_len d n : len (dec_print n) <= d -> len (padded d n) = d.
Proof. unfold padded, len. intros H. rewrite app_length, repeat_length. lia. Qed.

Lemma parse_digits max s n : s <> [] -> Forall (fun c => is_digit c = true) s ->
  dec_value s = Some n -> n <= max -> parse_uint max s = Some n.
Proof.
  intros Hne Hd Hv Hm. unfold parse_uint. destruct s as [|c s]; [congruence|].
  inversion Hd; subst. rewrite is_digit_plus by assumption. rewrite Hv.
  destruct (n <=? max) eqn:E; [reflexivity|lia].
Qed.

Lemma parse_nondigit max s c : In c s -> is_digit c = false -> c <> "+"%char -> parse_uint max s = None.
Proof.
  intros Hin Hc Hp. unfold parse_uint.
  assert (G : forall t, In c t -> dec_value t = None).
  { intros t Ht. unfold dec_value. destruct (dec_value_from 0 t) as [n|] eqn:E; [|reflexivity].
    exfalso. assert (D : Forall (fun c => is_digit c = true) t) by (apply (dec_value_from_digits 0); eauto).
    rewrite Forall_forall in D. apply D in Ht. congruence. }
  destruct s as [|x s]; [destruct Hin|].
  destruct (is_char x "+"%char) eqn:E.
  - apply is_char_eq in E; subst. destruct Hin as [X|X]; [congruence|].
    destruct s as [|y s]; [destruct X|]. rewrite G by exact X. reflexivity.
  - rewrite G by exact Hin. reflexivity.
Qed.

Lemma unseparated_filter s : unseparated s (filter notsep s).
Proof.
  induction s as [|c s IH]; [constructor|]. simpl. destruct (notsep c) eqn:E.
  - constructor; [|exact IH]. unfold notsep in E. intros [->| ->]; discriminate.
  - constructor; [|exact IH]. unfold notsep in E. apply negb_false_iff, orb_true_iff in E.
    destruct E as [E|E]; apply is_char_eq in E; subst; [left|right]; reflexivity.
Qed.

Lemma pow_decimals_u64 p : 10 ^ decimals p <= U64MAX.
Proof. destruct p; vm_compute; congruence. Qed.

(** Alternate form. *)
Lemma coin_display_alt {E} fill c : separator fill ->
  0 < decimals (ca_precision c) -> ca_fract c < 10 ^ decimals (ca_precision c) ->
  @coin_display E true fill c =
    Ok (to_chunks fill (dec_print (ca_int c)) ++
        "."%char :: to_chunks fill (padded (decimals (ca_precision c)) (ca_fract c))).
Proof.
  intros Hs Hd Hf. unfold coin_display.
  assert (negb (is_char fill " "%char || is_char fill "_"%char) = false) as ->.
  { destruct Hs as [->| ->]; reflexivity. }
  rewrite orb_true_r. cbn -[decimals dec_print N.ltb].
  destruct (decimals (ca_precision c) <? len (dec_print (ca_fract c))) eqn:X.
  - apply N.ltb_lt in X. apply (length_dec_print _ _ Hd) in Hf. lia.
  - cbn [rbind]. rewrite app_nil_r. reflexivity.
Qed.

Lemma sep_notsep fill : separator fill -> notsep fill = false.
Proof. intros [->| ->]; reflexivity. Qed.

Lemma alt_filter fill c : separator fill ->
  filter notsep (to_chunks fill (dec_print (ca_int c)) ++
     "."%char :: to_chunks fill (padded (decimals (ca_precision c)) (ca_fract c))) =
  dec_print (ca_int c) ++ "."%char :: padded (decimals (ca_precision c)) (ca_fract c).
Proof.
  intros Hs. rewrite filter_app. cbn [filter].
  change (notsep "."%char) with true. cbn iota.
  rewrite !to_chunks_filter by (apply sep_notsep; exact Hs).
  rewrite !digits_notsep; [reflexivity|apply padded_digits|apply dec_print_digits].
Qed.

Lemma coin_alt_round_trip {E} fill c : separator fill -> u64 (ca_int c) ->
  0 < decimals (ca_precision c) -> ca_fract c < 10 ^ decimals (ca_precision c) ->
  exists s, @coin_display E true fill c = Ok s /\ coin_from_str s = Ok c /\
    exists I F, unseparated s (I ++ "."%char :: F) /\ decimal I (ca_int c) /\
                decimal F (ca_fract c) /\ len F = decimals (ca_precision c).
Proof.
  intros Hs Hi Hd Hf. rewrite coin_display_alt by assumption. eexists. split; [reflexivity|].
  assert (Hlen : len (dec_print (ca_fract c)) <= decimals (ca_precision c))
    by (apply length_dec_print; assumption).
  assert (HF : padded (decimals (ca_precision c)) (ca_fract c) <> []).
  { intros X. pose proof (padded_len _ _ Hlen) as Y. rewrite X in Y. unfold len in Y; simpl in Y. lia. }
  split.
  - unfold coin_from_str.
    change (fun c => negb (is_char c " "%char || is_char c "_"%char)) with notsep.
    rewrite alt_filter by exact Hs.
    rewrite split_once_app by (apply digits_no; [reflexivity|apply dec_print_digits]).
    assert (split_once "~"%char (padded (decimals (ca_precision c)) (ca_fract c)) = None) as ->.
    { apply split_once_None. apply digits_no; [reflexivity|apply padded_digits]. }
    cbn [rbind ok_or]. rewrite padded_len by exact Hlen.
    rewrite parse_uint_print by (apply u64_le; exact Hi). cbn [rbind ok_or].
    rewrite (parse_digits U64MAX _ (ca_fract c));
      [|exact HF|apply padded_digits|apply padded_value|].
    2:{ pose proof (pow_decimals_u64 (ca_precision c)). lia. }
    cbn [rbind ok_or]. pose proof (decimals_le (ca_precision c)).
    destruct (U8MAX <? decimals (ca_precision c)) eqn:X; [unfold U8MAX in X; lia|].
    rewrite decimals_inv. cbn [rbind ok_or]. destruct c; reflexivity.
  - exists (dec_print (ca_int c)), (padded (decimals (ca_precision c)) (ca_fract c)).
    split; [|split; [|split]].
    + rewrite <- (alt_filter fill c Hs). apply unseparated_filter.
    + split; [apply dec_print_nonempty|apply dec_value_print].
    + split; [exact HF|apply padded_value].
    + apply padded_len; exact Hlen.
Qed.

Lemma coin_alt_indivisible_panics {E} fill c : ca_precision c = Indivisible ->
  @coin_display E true fill c = Panic.
Proof.
  intros H. unfold coin_display. destruct (negb _); [reflexivity|]. rewrite H, orb_true_r.
  cbn -[dec_print N.ltb].
  assert (0 <? len (dec_print (ca_fract c)) = true) as ->; [|reflexivity].
  pose proof (dec_print_nonempty (ca_fract c)). destruct (dec_print (ca_fract c)); [congruence|].
  unfold len; simpl. apply N.ltb_lt. lia.
Qed.

(** Plain form. *)
Lemma coin_display_plain {E} fill c : separator fill ->
  ca_fract c < 10 ^ decimals (ca_precision c) ->
  @coin_display E false fill c =
    Ok (dec_print (ca_int c) ++
        (if 0 <? ca_fract c
         then "."%char :: trim_end "0"%char (padded (decimals (ca_precision c)) (ca_fract c))
         else []) ++
        "~"%char :: dec_print (decimals (ca_precision c))).
Proof.
  intros Hs Hf. unfold coin_display.
  assert (negb (is_char fill " "%char || is_char fill "_"%char) = false) as ->.
  { destruct Hs as [->| ->]; reflexivity. }
  rewrite orb_false_r. cbn -[decimals dec_print N.ltb].
  destruct (0 <? ca_fract c) eqn:F; [|reflexivity]. apply N.ltb_lt in F.
  assert (Hd : 0 < decimals (ca_precision c)).
  { destruct (N.eq_dec (decimals (ca_precision c)) 0) as [X|X]; [|lia].
    rewrite X, N.pow_0_r in Hf. lia. }
  destruct (decimals (ca_precision c) <? len (dec_print (ca_fract c))) eqn:X.
  - apply N.ltb_lt in X. apply (length_dec_print _ _ Hd) in Hf. lia.
  - reflexivity.
Qed.

(** Trimming the trailing zeros of a digit string. *)
Lemma trim_zeros s : exists k, s = trim_end "0"%char s ++ repeat "0"%char k /\
  (trim_end "0"%char s = [] \/ exists t x, trim_end "0"%char s = t ++ [x] /\ x <> "0"%char).
Proof.
  induction s as [|x s (k & H1 & H2)] using rev_ind.
  - exists O. split; [reflexivity|left; reflexivity].
  - destruct (ascii_dec x "0"%char) as [->|Hx].
    + rewrite trim_end_snoc_eq. exists (S k). split.
      * rewrite H1 at 1. rewrite <- app_assoc. f_equal.
        clear. induction k; [reflexivity|]. simpl. f_equal. exact IHk.
      * exact H2.
    + rewrite trim_end_snoc_ne by exact Hx. exists O. split; [rewrite app_nil_r; reflexivity|].
      right. eauto.
Qed.

Lemma zeros_tail_value a k : dec_value_from a (repeat "0"%char k) = Some (a * 10 ^ N.of_nat k).
Proof.
  revert a; induction k as [|k IH]; intros a; cbn [repeat dec_value_from].
  - rewrite N.pow_0_r, N.mul_1_r. reflexivity.
  - change (char_digit "0"%char) with (Some 0). cbn iota beta. rewrite IH.
    rewrite Nat2N.inj_succ, N.pow_succ_r'. f_equal. lia.
Qed.

Lemma dec_value_snoc s x n : dec_value (s ++ [x]) = Some n ->
  exists m d, dec_value s = Some m /\ char_digit x = Some d /\ n = 10 * m + d.
Proof.
  unfold dec_value. rewrite dec_value_from_app. destruct (dec_value_from 0 s) as [m|]; [|congruence].
  cbn [dec_value_from]. destruct (char_digit x) as [d|]; [|congruence].
  intros X; inversion X. eauto.
Qed.

(** The trimmed fraction: its value scaled back is the fraction. *)
Lemma trimmed_fract s n : dec_value s = Some n -> 0 < n ->
  exists k m, s = trim_end "0"%char s ++ repeat "0"%char k /\
    dec_value (trim_end "0"%char s) = Some m /\ n = m * 10 ^ N.of_nat k /\
    trim_end "0"%char s <> [] /\ m mod 10 <> 0.
Proof.
  intros Hv Hn. destruct (trim_zeros s) as (k & H1 & H2).
  rewrite H1 in Hv. unfold dec_value in Hv. rewrite dec_value_from_app in Hv.
  destruct (dec_value_from 0 (trim_end "0"%char s)) as [m|] eqn:Em; [|congruence].
  rewrite zeros_tail_value in Hv. inversion Hv as [Hv'].
  exists k, m. split; [exact H1|]. split; [exact Em|]. split; [reflexivity|].
  destruct H2 as [H2|(t & x & H2 & Hx)].
  - rewrite H2 in Em. simpl in Em. inversion Em; subst. lia.
  - split; [rewrite H2; destruct t; simpl; congruence|].
    rewrite H2 in Em. apply dec_value_snoc in Em as (m' & d & _ & Ed & ->).
    apply char_digit_inv in Ed as [Ed1 Ed2].
    rewrite N.add_comm, N.mul_comm, N.mod_add by lia. rewrite N.mod_small by exact Ed1.
    intros ->. apply Hx. rewrite Ed2. reflexivity.
Qed.

Lemma Forall_prefix {A} (P : A -> Prop) l1 l2 : Forall P (l1 ++ l2) -> Forall P l1.
Proof. intros H. apply Forall_app in H. tauto. Qed.

Lemma coin_plain_denotes {E} fill c : separator fill ->
  ca_fract c < 10 ^ decimals (ca_precision c) ->
  exists s, @coin_display E false fill c = Ok s /\
    exists I P, decimal I (ca_int c) /\ decimal P (decimals (ca_precision c)) /\
      ((ca_fract c = 0 /\ s = I ++ "~"%char :: P) \/
       (exists F m, s = I ++ "."%char :: F ++ "~"%char :: P /\ decimal F m /\ m mod 10 <> 0 /\
            len F <= decimals (ca_precision c) /\
            ca_fract c = m * 10 ^ (decimals (ca_precision c) - len F))).
Proof.
  intros Hs Hf. rewrite coin_display_plain by assumption. eexists. split; [reflexivity|].
  exists (dec_print (ca_int c)), (dec_print (decimals (ca_precision c))).
  split; [split; [apply dec_print_nonempty|apply dec_value_print]|].
  split; [split; [apply dec_print_nonempty|apply dec_value_print]|].
  destruct (0 <? ca_fract c) eqn:F.
  - right. apply N.ltb_lt in F.
    assert (Hd : 0 < decimals (ca_precision c)).
    { destruct (N.eq_dec (decimals (ca_precision c)) 0) as [X|X]; [|lia].
      rewrite X, N.pow_0_r in Hf. lia. }
    assert (Hlen : len (dec_print (ca_fract c)) <= decimals (ca_precision c))
      by (apply length_dec_print; assumption).
    pose proof (padded_len _ _ Hlen) as HL.
    destruct (trimmed_fract _ _ (padded_value (decimals (ca_precision c)) (ca_fract c)) F)
      as (k & m & H1 & H2 & H3 & H4 & H5).
    exists (trim_end "0"%char (padded (decimals (ca_precision c)) (ca_fract c))), m.
    split; [reflexivity|]. split; [split; assumption|]. split; [exact H5|].
    rewrite H1 in HL. unfold len in HL. rewrite app_length, repeat_length in HL.
    unfold len. split; [lia|]. transitivity (m * 10 ^ N.of_nat k); [exact H3|]. do 2 f_equal. lia.
  - left. split; [lia|reflexivity].
Qed.

Lemma coin_plain_parse c s : separator " "%char -> u64 (ca_int c) ->
  ca_fract c < 10 ^ decimals (ca_precision c) ->
  @coin_display AmountParseError false " "%char c = Ok s ->
  (ca_fract c = 0 -> coin_from_str s = Err InvalidInt) /\
  (0 < ca_fract c -> exists m, coin_from_str s =
      Ok {| ca_int := ca_int c; ca_fract := m; ca_precision := ca_precision c |} /\
      m mod 10 <> 0 /\ exists k, ca_fract c = m * 10 ^ k).
Proof.
  intros Hs Hi Hf Hdisp. rewrite coin_display_plain in Hdisp by assumption.
  inversion Hdisp as [Hstr]; clear Hdisp.
  set (d := decimals (ca_precision c)) in *.
  assert (Hdd : d <= 18) by apply decimals_le.
  split; intros F.
  - assert ((0 <? ca_fract c) = false) as -> by (apply N.ltb_ge; lia). cbn [app].
    unfold coin_from_str.
    change (fun c => negb (is_char c " "%char || is_char c "_"%char)) with notsep.
    assert (filter notsep (dec_print (ca_int c) ++ "~"%char :: dec_print d) =
            dec_print (ca_int c) ++ "~"%char :: dec_print d) as ->.
    { rewrite filter_app. cbn [filter]. change (notsep "~"%char) with true. cbn iota.
      rewrite !digits_notsep by apply dec_print_digits. reflexivity. }
    assert (split_once "."%char (dec_print (ca_int c) ++ "~"%char :: dec_print d) = None) as ->.
    { apply split_once_None. intros Hin. apply in_app_or in Hin as [Hin|[Hin|Hin]].
      - revert Hin. apply digits_no; [reflexivity|apply dec_print_digits].
      - discriminate.
      - revert Hin. apply digits_no; [reflexivity|apply dec_print_digits]. }
    cbn [split_once lit list_ascii_of_string]. change (is_char "0"%char "~"%char) with false.
    cbn iota. cbn [rbind].
    rewrite (parse_nondigit _ _ "~"%char); [reflexivity| |reflexivity|discriminate].
    apply in_or_app. right. left. reflexivity.
  - assert ((0 <? ca_fract c) = true) as -> by (apply N.ltb_lt; lia).
    destruct (trimmed_fract _ _ (padded_value d (ca_fract c)) F)
      as (k & m & H1 & H2 & H3 & H4 & H5).
    set (fr := trim_end "0"%char (padded d (ca_fract c))) in *.
    assert (Hfr : Forall (fun c => is_digit c = true) fr).
    { pose proof (padded_digits d (ca_fract c)) as X. rewrite H1 in X. apply Forall_prefix in X. exact X. }
    exists m. split; [|split; [exact H5|eauto]].
    unfold coin_from_str.
    change (fun c => negb (is_char c " "%char || is_char c "_"%char)) with notsep.
    assert (filter notsep (dec_print (ca_int c) ++ ("."%char :: fr) ++ "~"%char :: dec_print d) =
            dec_print (ca_int c) ++ "."%char :: (fr ++ "~"%char :: dec_print d)) as ->.
    { rewrite filter_app, filter_app. cbn [filter]. change (notsep "~"%char) with true.
      change (notsep "."%char) with true. cbn iota.
      rewrite !digits_notsep by (apply dec_print_digits || exact Hfr). reflexivity. }
    rewrite split_once_app by (apply digits_no; [reflexivity|apply dec_print_digits]).
    rewrite split_once_app by (apply digits_no; [reflexivity|exact Hfr]).
    pose proof (dec_print_nonempty d) as Hne. pose proof (parse_uint_print U64MAX d) as Hpd.
    destruct (dec_print d) as [|x y] eqn:Ed; [congruence|].
    rewrite Hpd by (unfold U64MAX; lia). cbn [rbind ok_or].
    rewrite parse_uint_print by (apply u64_le; exact Hi). cbn [rbind ok_or].
    rewrite (parse_digits U64MAX fr m); [|exact H4|exact Hfr|exact H2|].
    2:{ pose proof (pow_decimals_u64 (ca_precision c)) as HU. fold d in HU.
        assert (10 ^ N.of_nat k <> 0) by (apply N.pow_nonzero; lia).
        assert (m <= m * 10 ^ N.of_nat k) by nia. lia. }
    cbn [rbind ok_or].
    destruct (U8MAX <? d) eqn:X; [unfold U8MAX in X; lia|].
    unfold d. rewrite decimals_inv. reflexivity.
Qed.

Lemma coin_from_str_no_panic s : coin_from_str s <> Panic.
Proof.
  unfold coin_from_str.
  destruct (match split_once _ _ with Some p => p | None => _ end) as [i r].
  destruct (match split_once _ _ with Some p => p | None => _ end) as [f p].
  destruct p as [|x p]; cbn [rbind ok_or].
  - destruct (parse_uint U64MAX i); cbn [rbind ok_or]; [|congruence].
    destruct (parse_uint U64MAX f); cbn [rbind ok_or]; [|congruence].
    destruct (_ <? _); [congruence|]. destruct (precision_of_u8 _); cbn [rbind ok_or]; congruence.
  - destruct (parse_uint U64MAX (x :: p)); cbn [rbind ok_or]; [|congruence].
    destruct (parse_uint U64MAX i); cbn [rbind ok_or]; [|congruence].
    destruct (parse_uint U64MAX f); cbn [rbind ok_or]; [|congruence].
    destruct (_ <? _); [congruence|]. destruct (precision_of_u8 _); cbn [rbind ok_or]; congruence.
Qed.

(** ** Property-level statements *)

Lemma amount_display_injective a b : u64 a -> u64 b -> amount_display a = amount_display b -> a = b.
Proof.
  intros Ha Hb H. pose proof (amount_round_trip a Ha) as X.
  rewrite H, amount_round_trip in X by exact Hb. congruence.
Qed.

Lemma checked_ops a b : u64 a -> u64 b ->
  (forall r, checked_add a b = Some r <-> r = a + b /\ u64 (a + b)) /\
  (checked_add a b = None <-> ~ u64 (a + b)) /\
  (forall r, checked_sub a b = Some r <-> r + b = a) /\
  (checked_sub a b = None <-> a < b).
Proof.
  intros Ha Hb. setoid_rewrite u64_le. rewrite u64_le in *. unfold checked_add, checked_sub, checked_add64, checked_sub64.
  destruct (a + b <=? U64MAX) eqn:X; destruct (b <=? a) eqn:Y;
    (split; [intros r; split; [intros Z; try discriminate; apply Some_inj in Z; lia|
                               intros [Z1 Z2]; try (exfalso; lia); f_equal; lia]|]);
    (split; [split; [intros Z; try discriminate; lia|intros Z; try (exfalso; lia); reflexivity]|]);
    (split; [intros r; split; [intros Z; try discriminate; apply Some_inj in Z; lia|
                               intros Z; try (exfalso; lia); f_equal; lia]|]);
    (split; [intros Z; try discriminate; lia|intros Z; try (exfalso; lia); reflexivity]).
Qed.

Lemma assign_ops a b : u64 a -> u64 b ->
  (u64 (a + b) -> checked_add_assign a b = (a + b, Some tt)) /\
  (~ u64 (a + b) -> checked_add_assign a b = (a, None)) /\
  (b <= a -> checked_sub_assign a b = (a - b, Some tt)) /\
  (a < b -> checked_sub_assign a b = (a, None)).
Proof.
  intros Ha Hb. rewrite !u64_le in *.
  unfold checked_add_assign, checked_sub_assign, checked_add64, checked_sub64.
  repeat split; intros; repeat match goal with
  | |- context [if ?x then _ else _] => destruct x eqn:?
  end; try reflexivity; exfalso; lia.
Qed.

Lemma saturating_ops a b : u64 a -> u64 b ->
  saturating_add a b = N.min (a + b) (2 ^ 64 - 1) /\
  saturating_sub a b = N.max a b - b /\
  saturating_add_assign a b = N.min (a + b) (2 ^ 64 - 1) /\
  saturating_sub_assign a b = N.max a b - b.
Proof.
  intros Ha Hb. rewrite !u64_le in *. change (2 ^ 64 - 1) with U64MAX.
  unfold saturating_add, saturating_add_assign, saturating_add64, saturating_sub_assign,
    saturating_sub, saturating_sub64.
  repeat split; repeat match goal with
  | |- context [if ?x then _ else _] => destruct x eqn:?
  end; lia.
Qed.

Lemma sum_saturates l : amount_sum l = N.min (total l) (2 ^ 64 - 1).
Proof. apply amount_sum_min. Qed.

Lemma sum_order_irrelevant l1 l2 : Permutation l1 l2 -> amount_sum l1 = amount_sum l2.
Proof. intros H. rewrite !amount_sum_min, (total_perm _ _ H). reflexivity. Qed.

Lemma convert_ops p a : u64 a ->
  (forall r, checked_convert p a = Some r <-> r = a * 10 ^ decimals p /\ u64 r) /\
  saturating_convert p a = N.min (a * 10 ^ decimals p) (2 ^ 64 - 1) /\
  (forall E, @unchecked_convert E p a =
     if a * 10 ^ decimals p <=? 2 ^ 64 - 1 then Ok (a * 10 ^ decimals p) else Panic).
Proof.
  intros Ha. unfold checked_convert, checked_mul64, saturating_convert, saturating_mul64,
    unchecked_convert, mul64. rewrite multiplier_pow. change (2 ^ 64 - 1) with U64MAX.
  split; [|split; [|reflexivity]].
  - intros r. rewrite u64_le. destruct (_ <=? _) eqn:X; split.
    + intros Y; inversion Y; subst; lia.
    + intros [-> _]; reflexivity.
    + congruence.
    + intros [-> Y]; lia.
  - destruct (_ <=? _) eqn:X; lia.
Qed.

Lemma split_exact {E} a p : u64 a ->
  exists i f, @split E a p = Ok (i, f) /\ i * 10 ^ decimals p + f = a /\ f < 10 ^ decimals p.
Proof.
  intros _. rewrite split_val. do 2 eexists. split; [reflexivity|].
  rewrite <- multiplier_pow. pose proof (mult_bounds p).
  pose proof (N.div_mod a (multiplier p) ltac:(lia)). pose proof (N.mod_lt a (multiplier p) ltac:(lia)). lia.
Qed.

Lemma rounding_exact {E} a p : u64 a ->
  (exists q, @floor E a p = Ok q /\ is_floor a (10 ^ decimals p) q) /\
  (exists q, @ceil E a p = Ok q /\ is_ceil a (10 ^ decimals p) q) /\
  (exists q, @round E a p = Ok q /\ is_round_half_up a (10 ^ decimals p) q) /\
  (exists q, @rem E a p = Ok q /\ q = a mod 10 ^ decimals p).
Proof.
  intros Ha. apply u64_le in Ha. rewrite <- multiplier_pow. pose proof (mult_bounds p).
  rewrite floor_val, ceil_val, round_val, rem_val by exact Ha.
  split; [|split; [|split]]; eexists; (split; [reflexivity|]).
  - unfold is_floor. pose proof (N.div_mod a (multiplier p) ltac:(lia)).
    pose proof (N.mod_lt a (multiplier p) ltac:(lia)). nia.
  - apply is_ceil_val; lia.
  - apply is_round_val; lia.
  - reflexivity.
Qed.

Lemma coin_new_recombines {E F} a p : u64 a ->
  exists c, @coin_new E a p = Ok c /\ ca_precision c = p /\
    ca_int c * 10 ^ decimals p + ca_fract c = a /\ ca_fract c < 10 ^ decimals p /\
    @to_amount_unchecked F c = Ok a.
Proof.
  intros Ha. unfold coin_new. destruct (@split_exact E a p Ha) as (i & f & H & H1 & H2).
  rewrite H. cbn [rbind fst snd]. eexists. split; [reflexivity|]. simpl.
  split; [reflexivity|]. split; [exact H1|]. split; [exact H2|].
  rewrite to_amount_val. simpl. rewrite H1. apply u64_le in Ha.
  destruct (a <=? U64MAX) eqn:X; [reflexivity|lia].
Qed.

Lemma coin_with_accepts i f p : u64 i -> u64 f ->
  (forall c, coin_with i f p = Ok c <->
     f < 10 ^ decimals p /\ c = {| ca_int := i; ca_fract := f; ca_precision := p |}) /\
  (coin_with i f p = Err PrecisionErr <-> 10 ^ decimals p <= f) /\
  coin_with i f p <> Panic.
Proof.
  intros Hi Hf. rewrite coin_with_val. destruct (_ <=? _) eqn:X.
  - apply N.leb_le in X. split; [|split; [|congruence]].
    + intros c; split; [congruence|]. intros [Y _]; lia.
    + split; auto.
  - apply N.leb_gt in X. split; [|split; [|congruence]].
    + intros c; split; [intros Y; inversion Y; auto|]. intros [_ ->]; reflexivity.
    + split; [congruence|lia].
Qed.

Lemma coin_to_amount_partial {E} c :
  (u64 (ca_int c * 10 ^ decimals (ca_precision c) + ca_fract c) ->
     @to_amount_unchecked E c = Ok (ca_int c * 10 ^ decimals (ca_precision c) + ca_fract c)) /\
  (~ u64 (ca_int c * 10 ^ decimals (ca_precision c) + ca_fract c) ->
     @to_amount_unchecked E c = Panic).
Proof.
  rewrite to_amount_val, u64_le. split; intros H; destruct (_ <=? _) eqn:X; try reflexivity; lia.
Qed.

Lemma coin_plain_round_trip c s : u64 (ca_int c) ->
  ca_fract c < 10 ^ decimals (ca_precision c) ->
  @coin_display AmountParseError false " "%char c = Ok s ->
  (coin_from_str s = Ok c <-> ca_fract c mod 10 <> 0).
Proof.
  intros Hi Hf Hs. destruct (coin_plain_parse c s (or_introl eq_refl) Hi Hf Hs) as [H0 H1].
  destruct (N.eq_dec (ca_fract c) 0) as [Z|Z].
  - rewrite (H0 Z), Z. rewrite N.mod_0_l by lia. split; [congruence|tauto].
  - destruct (H1 ltac:(lia)) as (m & P & Q & k & R). rewrite P. split.
    + intros X. inversion X as [Y]. rewrite <- Y in *. simpl in *. exact Q.
    + intros X. assert (k = 0).
      { destruct (N.eq_dec k 0) as [|K]; [assumption|]. exfalso. apply X. rewrite R.
        replace k with (N.succ (k - 1)) by lia. rewrite N.pow_succ_r'.
        replace (m * (10 * 10 ^ (k - 1))) with (m * 10 ^ (k - 1) * 10) by lia.
        apply N.mod_mul. lia. }
      subst k. rewrite N.pow_0_r, N.mul_1_r in R. subst m. destruct c; reflexivity.
Qed.
