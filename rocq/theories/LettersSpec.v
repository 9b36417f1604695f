(** * What the texts of amounts mean: specification for C01 and C05 *)
From Coq Require Import Ascii.
From Verif Require Import Base Str AmountModel AmountSpec InvoiceSpec.
Local Open Scope N_scope.

(** The number written with these digits, the most significant first *)
Definition number_of (base : N) (digits : list N) : N := fold_left (fun n d => n * base + d) digits 0.

(** The digits which the letters stand for *)
Definition letters_for (s : str) (digits : list N) : Prop :=
  Forall2 (fun c d => d < 32 /\ nth_error amount_letters (N.to_nat d) = Some c) s digits.

(** [s] are the bytes, written in base 32 with [spare] in the bits which are left over. *)
Definition spells (s : str) (bytes : list N) (spare : N) : Prop :=
  exists digits k, letters_for s digits /\ Forall (fun b => b < 256) bytes /\
    5 * len s = 8 * len bytes + k /\ k < 5 /\ spare < 2 ^ k /\
    number_of 32 digits = number_of 256 bytes * 2 ^ k + spare.

(** A text is read as the number of its bytes, at most eight, the least significant first,
    whatever is left over. *)
Definition reads_amount (s : str) (a : N) : Prop :=
  exists bytes spare, spells s bytes spare /\ len bytes <= 8 /\ a = number_of 256 (rev bytes).

(** An amount is written with as few bytes as it takes, at least one, and nothing left over. *)
Definition writes_amount (a : N) (s : str) : Prop :=
  exists bytes, spells s bytes 0 /\ bytes <> [] /\ a = number_of 256 (rev bytes) /\
    (len bytes = 1 \/ last bytes 0 <> 0).

(** The parts of the text of a coin amount: integer, fraction and precision.  Without a fraction
    it is 0. *)
Inductive coin_parts : str -> str -> str -> str -> Prop :=
| cp_whole I : ~ In "."%char I -> coin_parts I I ["0"%char] []
| cp_fract I F : ~ In "."%char I -> ~ In "~"%char F -> coin_parts (I ++ "."%char :: F) I F []
| cp_full I F P : ~ In "."%char I -> ~ In "~"%char F -> coin_parts (I ++ "."%char :: F ++ "~"%char :: P) I F P.

(** A text without its separators is read part by part; without a precision, the length of the
    fraction is the precision. *)
Definition reads_coin (s : str) (c : CoinAmount) : Prop :=
  exists t I F P, unseparated s t /\ coin_parts t I F P /\
    number (2 ^ 64) I (ca_int c) /\ number (2 ^ 64) F (ca_fract c) /\
    ((P = [] /\ decimals (ca_precision c) = len F) \/ number (2 ^ 64) P (decimals (ca_precision c))).
