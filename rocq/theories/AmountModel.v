(** Model of invoice/src/amount.rs: [Amount], [Precision], [CoinAmount] and their text forms. *)
From Coq Require Import Ascii String.
From Verif Require Import Base Str.
Local Open Scope N_scope.

(** ** u64 arithmetic.  Plain operators panic on overflow (checked profile). *)
Definition add64 {E} (a b : N) : result E N := if a + b <=? U64MAX then Ok (a + b) else Panic.
Definition mul64 {E} (a b : N) : result E N := if a * b <=? U64MAX then Ok (a * b) else Panic.
Definition div64 {E} (a b : N) : result E N := if b =? 0 then Panic else Ok (a / b).
Definition rem64 {E} (a b : N) : result E N := if b =? 0 then Panic else Ok (a mod b).
(** [u64::checked_add], [u64::checked_sub], [u64::checked_mul]. *)
Definition checked_add64 (a b : N) : option N := if a + b <=? U64MAX then Some (a + b) else None.
Definition checked_sub64 (a b : N) : option N := if b <=? a then Some (a - b) else None.
Definition checked_mul64 (a b : N) : option N := if a * b <=? U64MAX then Some (a * b) else None.
(** [u64::saturating_add], [u64::saturating_sub], [u64::saturating_mul]. *)
Definition saturating_add64 (a b : N) : N := if a + b <=? U64MAX then a + b else U64MAX.
Definition saturating_sub64 (a b : N) : N := if b <=? a then a - b else 0.
Definition saturating_mul64 (a b : N) : N := if a * b <=? U64MAX then a * b else U64MAX.

(** An [Amount] (amount.rs 41-60) is its u64 value. *)
Definition Amount := N.

(** amount.rs 131-133 *)
Definition saturating_add (self other : Amount) : Amount := saturating_add64 self other.
(** amount.rs 134-136 *)
Definition saturating_sub (self other : Amount) : Amount := saturating_sub64 self other.
(** amount.rs 138-140: the new value of [self] *)
Definition saturating_add_assign (self other : Amount) : Amount := saturating_add64 self other.
(** amount.rs 141-143 *)
Definition saturating_sub_assign (self other : Amount) : Amount := saturating_sub64 self other.
(** amount.rs 145-148 *)
Definition checked_add (self other : Amount) : option Amount := checked_add64 self other.
(** amount.rs 149-152 *)
Definition checked_sub (self other : Amount) : option Amount := checked_sub64 self other.
(** amount.rs 154-158: new value of [self] and the returned [Option<()>] *)
Definition checked_add_assign (self other : Amount) : Amount * option unit :=
  match checked_add64 self other with Some v => (v, Some tt) | None => (self, None) end.
(** amount.rs 159-163 *)
Definition checked_sub_assign (self other : Amount) : Amount * option unit :=
  match checked_sub64 self other with Some v => (v, Some tt) | None => (self, None) end.
(** amount.rs 166-176: [Sum<u64>] and [Sum<Amount>] are the same fold *)
Definition amount_sum (l : list Amount) : Amount := fold_left saturating_add l 0.

(** ** Fractions of tokens, data.rs 80-137 ([OwnedFraction]): the same operations on a number of
    their own *)
Notation OwnedFraction := N (only parsing).
(** data.rs 104-109 ([saturating_add], [saturating_sub]) *)
Definition fraction_saturating_add (self other : OwnedFraction) : OwnedFraction := saturating_add64 self other.
Definition fraction_saturating_sub (self other : OwnedFraction) : OwnedFraction := saturating_sub64 self other.
(** data.rs 111-116 ([saturating_add_assign], [saturating_sub_assign]) *)
Definition fraction_saturating_add_assign (self other : OwnedFraction) : OwnedFraction := saturating_add64 self other.
Definition fraction_saturating_sub_assign (self other : OwnedFraction) : OwnedFraction := saturating_sub64 self other.
(** data.rs 118-125 ([checked_add], [checked_sub]) *)
Definition fraction_checked_add (self other : OwnedFraction) : option OwnedFraction := checked_add64 self other.
Definition fraction_checked_sub (self other : OwnedFraction) : option OwnedFraction := checked_sub64 self other.
(** data.rs 127-136 ([checked_add_assign], [checked_sub_assign]): the fraction afterwards, and the
    result *)
Definition fraction_checked_add_assign (self other : OwnedFraction) : OwnedFraction * option unit :=
  match checked_add64 self other with Some v => (v, Some tt) | None => (self, None) end.
Definition fraction_checked_sub_assign (self other : OwnedFraction) : OwnedFraction * option unit :=
  match checked_sub64 self other with Some v => (v, Some tt) | None => (self, None) end.

(** ** Precision, amount.rs 204-234 *)
Inductive Precision :=
| Indivisible | Deci | Centi | Milli | DeciMilli | CentiMilli | Micro | DeciMicro | CentiMicro
| Nano | DeciNano | CentiNano | Pico | DeciPico | CentiPico | Femto | DeciFemto | CentiFemto | Atto.

(** amount.rs 240: [self as u8] *)
Definition decimals (p : Precision) : N :=
  match p with
  | Indivisible => 0 | Deci => 1 | Centi => 2 | Milli => 3 | DeciMilli => 4 | CentiMilli => 5
  | Micro => 6 | DeciMicro => 7 | CentiMicro => 8 | Nano => 9 | DeciNano => 10 | CentiNano => 11
  | Pico => 12 | DeciPico => 13 | CentiPico => 14 | Femto => 15 | DeciFemto => 16
  | CentiFemto => 17 | Atto => 18
  end.

(** The [try_from_u8] conversion derived at amount.rs 207 *)
Definition precision_of_u8 (n : N) : option Precision :=
  match n with
  | 0 => Some Indivisible | 1 => Some Deci | 2 => Some Centi | 3 => Some Milli
  | 4 => Some DeciMilli | 5 => Some CentiMilli | 6 => Some Micro | 7 => Some DeciMicro
  | 8 => Some CentiMicro | 9 => Some Nano | 10 => Some DeciNano | 11 => Some CentiNano
  | 12 => Some Pico | 13 => Some DeciPico | 14 => Some CentiPico | 15 => Some Femto
  | 16 => Some DeciFemto | 17 => Some CentiFemto | 18 => Some Atto
  | _ => None
  end.

(** amount.rs 242-264 *)
Definition multiplier (p : Precision) : N :=
  match p with
  | Indivisible => 1
  | Deci => 10
  | Centi => 100
  | Milli => 1000
  | DeciMilli => 10000
  | CentiMilli => 100000
  | Micro => 1000000
  | DeciMicro => 10000000
  | CentiMicro => 100000000
  | Nano => 1000000000
  | DeciNano => 10000000000
  | CentiNano => 100000000000
  | Pico => 1000000000000
  | DeciPico => 10000000000000
  | CentiPico => 100000000000000
  | Femto => 1000000000000000
  | DeciFemto => 10000000000000000
  | CentiFemto => 100000000000000000
  | Atto => 1000000000000000000
  end.

(** amount.rs 266-268 *)
Definition unchecked_convert {E} (p : Precision) (a : N) : result E Amount := mul64 a (multiplier p).
(** amount.rs 270-275 *)
Definition checked_convert (p : Precision) (a : N) : option Amount := checked_mul64 a (multiplier p).
(** amount.rs 276-278 *)
Definition saturating_convert (p : Precision) (a : N) : Amount := saturating_mul64 a (multiplier p).
(** amount.rs 84-86 *)
Definition with_precision {E} (a : N) (p : Precision) : result E Amount := unchecked_convert p a.
(** amount.rs 88-90 *)
Definition with_precision_checked (a : N) (p : Precision) : option Amount := checked_convert p a.

(** amount.rs 127-129 *)
Definition rem {E} (self : Amount) (p : Precision) : result E N := rem64 self (multiplier p).
(** amount.rs 120-125 *)
Definition floor {E} (self : Amount) (p : Precision) : result E N :=
  if self =? 0 then Ok 0 else div64 self (multiplier p).
(** amount.rs 111-118 *)
Definition ceil {E} (self : Amount) (p : Precision) : result E N :=
  if self =? 0 then Ok 0 else
  let! r := rem self p in
  let inc := if 0 <? r then 1 else 0 in
  let! q := div64 self (multiplier p) in
  add64 q inc.
(** amount.rs 101-109 *)
Definition round {E} (self : Amount) (p : Precision) : result E N :=
  let mul := multiplier p in
  if self =? 0 then Ok 0 else
  let! r := rem self p in
  let! r2 := mul64 2 r in
  let! inc := div64 r2 mul in
  let! q := div64 self mul in
  add64 q inc.
(** amount.rs 94-99 *)
Definition split {E} (self : Amount) (p : Precision) : result E (N * N) :=
  let! int := floor self p in
  let! fract := rem self p in
  Ok (int, fract).

(** ** Base-32 text of an amount *)

(** amount.rs 38 *)
Definition ENC_BASE32_NODIGIT : str := lit "abcdefghkmnABCDEFGHKMNPQRSTVWXYZ".

(** [u64::to_le_bytes] *)
Fixpoint to_le_bytes (k : nat) (n : N) : list N :=
  match k with O => [] | S k' => n mod 256 :: to_le_bytes k' (n / 256) end.
(** [u64::from_le_bytes]; missing high bytes are zero (amount.rs 199-201) *)
Fixpoint from_le_bytes (l : list N) : N :=
  match l with [] => 0 | b :: l' => b + 256 * from_le_bytes l' end.

(** The bytes up to the last non-zero one, amount.rs 181: [rposition(|b| *b != 0)] *)
Fixpoint trim_zero_bytes (l : list N) : list N :=
  match l with
  | [] => []
  | b :: l' => match trim_zero_bytes l' with
               | [] => if b =? 0 then [] else [b]
               | t => b :: t
               end
  end.
(** amount.rs 181-182: [unwrap_or(0) + 1] keeps the first byte of zero *)
Definition significant_bytes (l : list N) : list N :=
  match trim_zero_bytes l with [] => firstn 1 l | t => t end.

(** Bits of a byte or of a 5-bit group, most significant first *)
Fixpoint to_bits (k : nat) (n : N) : list bool :=
  match k with O => [] | S k' => N.testbit n (N.of_nat k') :: to_bits k' n end.
Fixpoint of_bits_from (acc : N) (l : list bool) : N :=
  match l with [] => acc | b :: l' => of_bits_from (2 * acc + N.b2n b) l' end.
Definition of_bits (l : list bool) : N := of_bits_from 0 l.

(** Splitting a bit string into 5-bit groups, the last one padded with zeros
    (encoder of the external crate [fast32] used at amount.rs 182) *)
Fixpoint groups5 (l : list bool) : list (list bool) :=
  match l with
  | a :: b :: c :: d :: e :: r => [a; b; c; d; e] :: groups5 r
  | [] => []
  | [a] => [[a; false; false; false; false]]
  | [a; b] => [[a; b; false; false; false]]
  | [a; b; c] => [[a; b; c; false; false]]
  | [a; b; c; d] => [[a; b; c; d; false]]
  end.
(** Splitting a bit string into bytes, dropping an incomplete last group
    (decoder of [fast32] used at amount.rs 191) *)
Fixpoint groups8 (l : list bool) : list (list bool) :=
  match l with
  | a :: b :: c :: d :: e :: f :: g :: h :: r => [a; b; c; d; e; f; g; h] :: groups8 r
  | _ => []
  end.

Definition letter (i : N) : ascii := nth (N.to_nat i) ENC_BASE32_NODIGIT Ascii.zero.
Fixpoint index_of (c : ascii) (l : str) : option N :=
  match l with
  | [] => None
  | x :: l' => if is_char c x then Some 0 else option_map N.succ (index_of c l')
  end.
Definition letter_index (c : ascii) : option N := index_of c ENC_BASE32_NODIGIT.

(** [BASE32_NODIGIT.encode] *)
Definition base32_encode (bytes : list N) : str :=
  map (fun g => letter (of_bits g)) (groups5 (flat_map (to_bits 8) bytes)).

Inductive Base32Error :=
| InvalidChar
| InvalidLength (length : N).

Fixpoint letters_index (s : str) : option (list N) :=
  match s with
  | [] => Some []
  | c :: s' => match letter_index c, letters_index s' with
               | Some i, Some l => Some (i :: l)
               | _, _ => None
               end
  end.

(** [BASE32_NODIGIT.decode_str]: lengths which no encoding has are refused, bits left over
    after the last full byte are ignored (assumption on [fast32], see DESIGN.md) *)
Definition base32_decode (s : str) : result Base32Error (list N) :=
  let r := len s mod 8 in
  if (r =? 1) || (r =? 3) || (r =? 6) then Err (InvalidLength (len s)) else
  match letters_index s with
  | None => Err InvalidChar
  | Some l => Ok (map of_bits (groups8 (flat_map (to_bits 5) l)))
  end.

(** amount.rs 178-185 *)
Definition amount_display (a : Amount) : str :=
  base32_encode (significant_bytes (to_le_bytes 8 a)).

(** amount.rs 187-202 *)
Definition amount_from_str (s : str) : result Base32Error Amount :=
  let! bytes := base32_decode s in
  if 8 <? len bytes then Err (InvalidLength (len bytes)) else Ok (from_le_bytes bytes).

(** ** Coin amounts, amount.rs 297-305 *)
Record CoinAmount := { ca_int : N; ca_fract : N; ca_precision : Precision }.

Inductive PrecisionError := PrecisionErr.

(** amount.rs 308-317 *)
Definition coin_new {E} (a : Amount) (p : Precision) : result E CoinAmount :=
  let! s := split a p in
  Ok {| ca_int := fst s; ca_fract := snd s; ca_precision := p |}.

(** [10u64.pow(n)], panics on overflow *)
Definition pow10_64 {E} (n : N) : result E N := if 10 ^ n <=? U64MAX then Ok (10 ^ n) else Panic.

(** amount.rs 319-336 *)
Definition coin_with (int fract : N) (p : Precision) : result PrecisionError CoinAmount :=
  let! pow := pow10_64 (decimals p) in
  if pow <=? fract then Err PrecisionErr
  else Ok {| ca_int := int; ca_fract := fract; ca_precision := p |}.

(** amount.rs 338-351: the two [expect]s *)
Definition to_amount_unchecked {E} (c : CoinAmount) : result E Amount :=
  let! pow := pow10_64 (decimals (ca_precision c)) in
  let! v := expect (checked_mul64 (ca_int c) pow) in
  expect (checked_add64 v (ca_fract c)).

(** Splitting into groups of three counted from the start ([chunks(3)], amount.rs 367) *)
Fixpoint chunks3 (s : str) : list str :=
  match s with
  | a :: b :: c :: r => [a; b; c] :: chunks3 r
  | [] => []
  | r => [r]
  end.
(** amount.rs 362-374: groups of three counted from the end, joined with the fill character *)
Definition to_chunks (fill : ascii) (s : str) : str :=
  join [fill] (rev (map (@rev ascii) (chunks3 (rev s)))).

(** amount.rs 354-407.  [fill] and [alternate] are the formatter's options; a formatter with an
    explicit precision (always a panic, amount.rs 359-361) is left out. *)
Definition coin_display {E} (alternate : bool) (fill : ascii) (c : CoinAmount) : result E str :=
  if negb (is_char fill " "%char || is_char fill "_"%char) then Panic else
  let int := dec_print (ca_int c) in
  let int := if alternate then to_chunks fill int else int in
  let! fract_part :=
    if (0 <? ca_fract c) || alternate then
      let float := dec_print (ca_fract c) in
      let d := decimals (ca_precision c) in
      if d <? len float then Panic else
      let float := repeat "0"%char (N.to_nat (d - len float)) ++ float in
      let float := if alternate then to_chunks fill float else trim_end "0"%char float in
      Ok ("."%char :: float)
    else Ok [] in
  let tail := if alternate then [] else "~"%char :: dec_print (decimals (ca_precision c)) in
  Ok (int ++ fract_part ++ tail).

(** amount.rs 410-426 *)
Inductive AmountParseError :=
| InvalidInt | InvalidFract | InvalidPrecision | PrecisionOverflow | UnknownPrecision.

(** amount.rs 428-451 *)
Definition coin_from_str (s : str) : result AmountParseError CoinAmount :=
  let s := filter (fun c => negb (is_char c " "%char || is_char c "_"%char)) s in
  let '(int, remain) := match split_once "."%char s with
                        | Some p => p | None => (s, lit "0") end in
  let '(fract, precision) := match split_once "~"%char remain with
                             | Some p => p | None => (remain, []) end in
  let! precision := match precision with
                    | [] => Ok (len fract)
                    | _ => ok_or InvalidPrecision (parse_uint U64MAX precision)
                    end in
  let! int := ok_or InvalidInt (parse_uint U64MAX int) in
  let! fract := ok_or InvalidFract (parse_uint U64MAX fract) in
  if U8MAX <? precision then Err PrecisionOverflow else
  let! p := ok_or UnknownPrecision (precision_of_u8 precision) in
  Ok {| ca_int := int; ca_fract := fract; ca_precision := p |}.
