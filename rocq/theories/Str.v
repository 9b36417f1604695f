(** Strings (byte lists) and the pieces of the Rust standard library used by the text formats:
    decimal printing, [u64::from_str], [split_once], [split], [join], [trim_end_matches]. *)
From Coq Require Import Ascii String.
From Verif Require Import Base.
Local Open Scope N_scope.

(** A Rust string as the list of its bytes. *)
Definition str := list ascii.
Definition lit (s : string) : str := list_ascii_of_string s.
Arguments lit s%string_scope.

Definition ch (s : string) : ascii :=
  match s with String c _ => c | EmptyString => Ascii.zero end.

Definition streqb (a b : str) : bool := if list_eq_dec ascii_dec a b then true else false.

Lemma streqb_eq a b : streqb a b = true <-> a = b.
Proof. unfold streqb. destruct (list_eq_dec ascii_dec a b); split; congruence. Qed.

Lemma streqb_refl a : streqb a a = true.
Proof. apply streqb_eq; reflexivity. Qed.

Definition is_char (c d : ascii) : bool := if ascii_dec c d then true else false.

Lemma is_char_eq c d : is_char c d = true <-> c = d.
Proof. unfold is_char. destruct (ascii_dec c d); split; congruence. Qed.

Lemma is_char_refl c : is_char c c = true.
Proof. apply is_char_eq; reflexivity. Qed.

Lemma is_char_false c d : is_char c d = false <-> c <> d.
Proof. unfold is_char. destruct (ascii_dec c d); split; congruence. Qed.

(** ** Decimal numbers *)

Definition digit_char (d : N) : ascii := ascii_of_N (48 + d).
Definition char_digit (c : ascii) : option N :=
  let n := N_of_ascii c in
  if (48 <=? n) && (n <=? 57) then Some (n - 48) else None.

Fixpoint dec_aux (fuel : nat) (n : N) : str :=
  match fuel with
  | O => []
  | S f => if n <? 10 then [digit_char n] else dec_aux f (n / 10) ++ [digit_char (n mod 10)]
  end.
(** [u64::to_string]. *)
Definition dec_print (n : N) : str := dec_aux (S (N.size_nat n)) n.

(** The value of a string of decimal digits. *)
Fixpoint dec_value_from (acc : N) (s : str) : option N :=
  match s with
  | [] => Some acc
  | c :: s' => match char_digit c with
               | Some d => dec_value_from (10 * acc + d) s'
               | None => None
               end
  end.
Definition dec_value (s : str) : option N := dec_value_from 0 s.

(** [uN::from_str]: a non-empty digit string with an optional '+', not exceeding the maximum. *)
Definition parse_uint (max : N) (s : str) : option N :=
  let s' := match s with c :: r => if is_char c "+"%char then r else s | [] => s end in
  match s' with
  | [] => None
  | _ => match dec_value s' with
         | Some n => if n <=? max then Some n else None
         | None => None
         end
  end.

(** ** Searching and splitting *)

(** [str::split_once(char)]: split at the first occurrence. *)
Fixpoint split_once (c : ascii) (s : str) : option (str * str) :=
  match s with
  | [] => None
  | x :: s' => if is_char x c then Some ([], s')
               else match split_once c s' with
                    | Some (a, b) => Some (x :: a, b)
                    | None => None
                    end
  end.

Fixpoint strip_prefix (p s : str) : option str :=
  match p, s with
  | [], _ => Some s
  | _ :: _, [] => None
  | a :: p', b :: s' => if is_char a b then strip_prefix p' s' else None
  end.

(** [str::split_once(&str)]. *)
Fixpoint split_once_str (p s : str) : option (str * str) :=
  match strip_prefix p s with
  | Some r => Some ([], r)
  | None => match s with
            | [] => None
            | x :: s' => match split_once_str p s' with
                         | Some (a, b) => Some (x :: a, b)
                         | None => None
                         end
            end
  end.

(** [str::split(char)]: always at least one piece. *)
Fixpoint split_all (c : ascii) (s : str) : list str :=
  match s with
  | [] => [[]]
  | x :: s' => if is_char x c then [] :: split_all c s'
               else match split_all c s' with
                    | p :: ps => (x :: p) :: ps
                    | [] => [[x]]
                    end
  end.

(** [[String]::join]. *)
Fixpoint join (sep : str) (l : list str) : str :=
  match l with
  | [] => []
  | [a] => a
  | a :: l' => a ++ sep ++ join sep l'
  end.

(** [str::trim_end_matches(char)]. *)
Fixpoint trim_end (c : ascii) (s : str) : str :=
  match s with
  | [] => []
  | x :: s' => match trim_end c s' with
               | [] => if is_char x c then [] else [x]
               | t => x :: t
               end
  end.

Definition ascii_lower (c : ascii) : ascii :=
  let n := N_of_ascii c in if (65 <=? n) && (n <=? 90) then ascii_of_N (n + 32) else c.
Definition ascii_upper (c : ascii) : ascii :=
  let n := N_of_ascii c in if (97 <=? n) && (n <=? 122) then ascii_of_N (n - 32) else c.

(** ** Facts *)

Lemma N_of_digit_char d : d < 10 -> N_of_ascii (digit_char d) = 48 + d.
Proof. intros H. unfold digit_char. rewrite N_ascii_embedding; lia. Qed.

Lemma char_digit_digit d : d < 10 -> char_digit (digit_char d) = Some d.
Proof.
  intros H. unfold char_digit. rewrite N_of_digit_char by exact H.
  destruct (48 <=? 48 + d) eqn:E1; [|lia]. destruct (48 + d <=? 57) eqn:E2; [|lia].
  simpl. f_equal. lia.
Qed.

Lemma char_digit_inv c d : char_digit c = Some d -> d < 10 /\ c = digit_char d.
Proof.
  unfold char_digit. destruct ((48 <=? N_of_ascii c) && (N_of_ascii c <=? 57)) eqn:E; [|congruence].
  apply andb_true_iff in E as [E1 E2]. apply N.leb_le in E1, E2.
  intros X; inversion X; subst. split; [lia|].
  unfold digit_char. replace (48 + (N_of_ascii c - 48)) with (N_of_ascii c) by lia.
  symmetry; apply ascii_N_embedding.
Qed.

Definition is_digit (c : ascii) : bool := match char_digit c with Some _ => true | None => false end.

Lemma dec_value_from_app a s1 s2 :
  dec_value_from a (s1 ++ s2) =
  match dec_value_from a s1 with Some b => dec_value_from b s2 | None => None end.
Proof.
  revert a; induction s1 as [|c s1 IH]; intros a; simpl; [reflexivity|].
  destruct (char_digit c); [apply IH|reflexivity].
Qed.

Lemma dec_value_from_digits a s : Forall (fun c => is_digit c = true) s <->
  exists n, dec_value_from a s = Some n.
Proof.
  revert a; induction s as [|c s IH]; intros a; simpl.
  - split; [eauto|constructor].
  - unfold is_digit in *. destruct (char_digit c) as [d|] eqn:E.
    + rewrite <- IH. split; [intros H; inversion H; auto|].
      intros H; constructor; [rewrite E; reflexivity|exact H].
    + split; [intros H; inversion H as [|? ? Hc]; rewrite E in Hc; congruence|intros [n X]; congruence].
Qed.

Lemma size_nat_div10 n : 10 <= n -> (N.size_nat (n / 10) < N.size_nat n)%nat.
Proof.
  intros H.
  assert (Hs : forall m, N.size_nat m = N.to_nat (N.size m)).
  { intros m. destruct m as [|p]; [reflexivity|]. simpl.
    induction p as [p IH|p IH|]; simpl; try reflexivity; rewrite IH, Pos2Nat.inj_succ; reflexivity. }
  rewrite !Hs.
  assert (n / 10 <> 0) by (intros X; apply N.div_small_iff in X; lia).
  assert (N.size (n / 10) < N.size n); [|lia].
  rewrite !N.size_log2 by lia. apply -> N.succ_lt_mono.
  apply N.log2_lt_pow2; [lia|].
  pose proof (N.log2_spec n ltac:(lia)) as [Ha Hb].
  rewrite N.pow_succ_r' in Hb.
  apply N.div_lt_upper_bound; lia.
Qed.

Lemma dec_aux_fuel f1 f2 n : (N.size_nat n < f1)%nat -> (N.size_nat n < f2)%nat ->
  dec_aux f1 n = dec_aux f2 n.
Proof.
  revert f2 n; induction f1 as [|f1 IH]; intros [|f2] n H1 H2; try lia.
  simpl. destruct (n <? 10) eqn:E; [reflexivity|].
  apply N.ltb_ge in E. pose proof (size_nat_div10 n E). f_equal. apply IH; lia.
Qed.

Lemma dec_print_eq n :
  dec_print n = if n <? 10 then [digit_char n] else dec_print (n / 10) ++ [digit_char (n mod 10)].
Proof.
  unfold dec_print at 1. cbn [dec_aux].
  destruct (n <? 10) eqn:E; [reflexivity|]. f_equal. unfold dec_print.
  apply N.ltb_ge in E. pose proof (size_nat_div10 n E). apply dec_aux_fuel; lia.
Qed.

Lemma dec_print_ind (P : N -> Prop) :
  (forall n, n < 10 -> P n) -> (forall n, 10 <= n -> P (n / 10) -> P n) -> forall n, P n.
Proof.
  intros H0 H1 n. induction n as [n IH] using (well_founded_induction N.lt_wf_0).
  destruct (N.lt_ge_cases n 10) as [H|H]; [auto|].
  apply H1; [exact H|]. apply IH. apply N.div_lt; lia.
Qed.

Lemma dec_value_print n : dec_value (dec_print n) = Some n.
Proof.
  unfold dec_value. induction n as [n H|n H IH] using dec_print_ind; rewrite dec_print_eq.
  - destruct (n <? 10) eqn:E; [|lia]. cbn -[char_digit digit_char N.mul].
    rewrite char_digit_digit by exact H. f_equal.
  - destruct (n <? 10) eqn:E; [lia|]. rewrite dec_value_from_app, IH.
    cbn -[char_digit digit_char N.mul N.modulo N.div]. pose proof (N.mod_lt n 10 ltac:(lia)).
    rewrite char_digit_digit by assumption. f_equal. pose proof (N.div_mod n 10 ltac:(lia)). lia.
Qed.

Lemma dec_print_digits n : Forall (fun c => is_digit c = true) (dec_print n).
Proof. apply (dec_value_from_digits 0). exists n. apply dec_value_print. Qed.

Lemma dec_print_nonempty n : dec_print n <> [].
Proof. rewrite dec_print_eq. destruct (n <? 10); [congruence|]. destruct (dec_print (n / 10)); simpl; congruence. Qed.

Lemma dec_print_inj n m : dec_print n = dec_print m -> n = m.
Proof. intros H. pose proof (dec_value_print n) as X. rewrite H, dec_value_print in X. congruence. Qed.

Lemma dec_value_from_bound a s n : dec_value_from a s = Some n ->
  a * 10 ^ len s <= n < (a + 1) * 10 ^ len s.
Proof.
  unfold len. revert a; induction s as [|c s IH]; intros a; simpl length; cbn [dec_value_from].
  - intros X; inversion X; subst. simpl. lia.
  - destruct (char_digit c) as [d|] eqn:E; [|congruence]. intros X. apply IH in X.
    apply char_digit_inv in E as [E _].
    rewrite Nat2N.inj_succ, N.pow_succ_r'. nia.
Qed.

Lemma length_dec_print n d : 0 < d -> (len (dec_print n) <= d <-> n < 10 ^ d).
Proof.
  revert d. induction n as [n H|n H IH] using dec_print_ind; intros d Hd; rewrite dec_print_eq.
  - destruct (n <? 10) eqn:E; [|lia]. unfold len; simpl. split; [|lia].
    intros _. pose proof (N.pow_le_mono_r 10 1 d ltac:(lia) ltac:(lia)). rewrite N.pow_1_r in *. lia.
  - destruct (n <? 10) eqn:E; [lia|]. unfold len in *. rewrite app_length. simpl length.
    rewrite Nat.add_1_r, Nat2N.inj_succ.
    assert (Hne : N.of_nat (Datatypes.length (dec_print (n / 10))) <> 0).
    { pose proof (dec_print_nonempty (n / 10)). destruct (dec_print (n / 10)); simpl; [congruence|lia]. }
    assert (Hn10 : n / 10 <> 0) by (intros X; apply N.div_small_iff in X; lia).
    destruct (N.eq_dec d 1) as [->|Hd1].
    + rewrite N.pow_1_r. lia.
    + specialize (IH (d - 1) ltac:(lia)).
      replace (10 ^ d) with (10 * 10 ^ (d - 1))
        by (rewrite <- N.pow_succ_r'; f_equal; lia).
      split; intros Hx.
      * assert (n / 10 < 10 ^ (d - 1)) by (apply IH; lia).
        pose proof (N.div_mod n 10 ltac:(lia)). pose proof (N.mod_lt n 10 ltac:(lia)). lia.
      * assert (n / 10 < 10 ^ (d - 1)) by (apply N.div_lt_upper_bound; lia).
        apply IH in H0. lia.
Qed.

Lemma is_digit_plus c : is_digit c = true -> is_char c "+"%char = false.
Proof.
  intros H. apply is_char_false. intros ->. discriminate.
Qed.

Lemma parse_uint_print max n : n <= max -> parse_uint max (dec_print n) = Some n.
Proof.
  intros H. unfold parse_uint. pose proof (dec_print_nonempty n) as Hne.
  pose proof (dec_print_digits n) as Hd. pose proof (dec_value_print n) as Hv.
  destruct (dec_print n) as [|c s] eqn:E; [congruence|].
  inversion Hd as [|? ? Hc Hs]; subst. rewrite (is_digit_plus c Hc). rewrite Hv.
  destruct (n <=? max) eqn:X; [reflexivity|lia].
Qed.

Lemma parse_uint_bound max s n : parse_uint max s = Some n -> n <= max.
Proof.
  unfold parse_uint.
  destruct (match s with [] => s | c :: r => if is_char c "+"%char then r else s end) as [|a l];
    [congruence|].
  destruct (dec_value (a :: l)) as [m|]; [|congruence].
  destruct (m <=? max) eqn:X; [|congruence]. intros Y; inversion Y; subst. lia.
Qed.

Lemma split_once_None c s : split_once c s = None <-> ~ In c s.
Proof.
  induction s as [|x s IH]; simpl; [tauto|].
  destruct (is_char x c) eqn:E.
  - apply is_char_eq in E; subst. split; [congruence|tauto].
  - apply is_char_false in E. destruct (split_once c s) as [[a b]|].
    + split; [congruence|]. intros H. exfalso.
      assert (X : Some (a, b) = None) by (apply IH; tauto). congruence.
    + split; [|reflexivity]. intros _ [X|X]; [congruence|]. apply IH; auto.
Qed.

Lemma split_once_app c a b : ~ In c a -> split_once c (a ++ c :: b) = Some (a, b).
Proof.
  induction a as [|x a IH]; simpl; intros H.
  - rewrite is_char_refl; reflexivity.
  - destruct (is_char x c) eqn:E; [apply is_char_eq in E; tauto|].
    rewrite IH by tauto. reflexivity.
Qed.

Lemma split_once_Some c s a b : split_once c s = Some (a, b) <-> s = a ++ c :: b /\ ~ In c a.
Proof.
  split.
  - revert a; induction s as [|x s IH]; intros a; simpl; [congruence|].
    destruct (is_char x c) eqn:E.
    + apply is_char_eq in E; subst. intros X; inversion X; subst. auto.
    + apply is_char_false in E. destruct (split_once c s) as [[a' b']|]; [|congruence].
      intros X; inversion X; subst. destruct (IH _ eq_refl) as [-> Hn].
      split; [reflexivity|]. simpl. intros [Y|Y]; [congruence|tauto].
  - intros [-> H]. apply split_once_app; exact H.
Qed.

Lemma strip_prefix_app p s : strip_prefix p (p ++ s) = Some s.
Proof. induction p as [|a p IH]; simpl; [reflexivity|]. rewrite is_char_refl. exact IH. Qed.

Lemma strip_prefix_Some p s r : strip_prefix p s = Some r <-> s = p ++ r.
Proof.
  split; [|intros ->; apply strip_prefix_app].
  revert s; induction p as [|a p IH]; intros s; simpl; [congruence|].
  destruct s as [|b s]; [congruence|].
  destruct (is_char a b) eqn:E; [|congruence]. apply is_char_eq in E; subst.
  intros X. apply IH in X. congruence.
Qed.

Lemma trim_end_snoc_ne c s x : x <> c -> trim_end c (s ++ [x]) = s ++ [x].
Proof.
  intros H. induction s as [|y s IH]; simpl.
  - destruct (is_char x c) eqn:E; [apply is_char_eq in E; congruence|reflexivity].
  - rewrite IH. destruct (s ++ [x]) eqn:E; [destruct s; discriminate|reflexivity].
Qed.

Lemma trim_end_snoc_eq c s : trim_end c (s ++ [c]) = trim_end c s.
Proof.
  induction s as [|y s IH]; simpl; [rewrite is_char_refl; reflexivity|]. rewrite IH. reflexivity.
Qed.

Lemma split_all_noc c s : ~ In c s -> split_all c s = [s].
Proof.
  induction s as [|x s IH]; simpl; intros H; [reflexivity|].
  destruct (is_char x c) eqn:E; [apply is_char_eq in E; tauto|]. rewrite IH by tauto. reflexivity.
Qed.

Lemma split_all_app c a s : ~ In c a -> split_all c (a ++ c :: s) = a :: split_all c s.
Proof.
  induction a as [|x a IH]; simpl; intros H.
  - rewrite is_char_refl. reflexivity.
  - destruct (is_char x c) eqn:E; [apply is_char_eq in E; tauto|]. rewrite IH by tauto. reflexivity.
Qed.

Lemma split_all_join c l : l <> [] -> Forall (fun p => ~ In c p) l ->
  split_all c (join [c] l) = l.
Proof.
  induction l as [|a l IH]; intros Hne Hf; [congruence|].
  inversion Hf; subst. destruct l as [|b l].
  - simpl. apply split_all_noc; assumption.
  - change (join [c] (a :: b :: l)) with (a ++ c :: join [c] (b :: l)).
    rewrite split_all_app by assumption. f_equal. apply IH; [congruence|assumption].
Qed.
