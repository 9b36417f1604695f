(** * The texts of amounts: lemmas for C01 and C05 *)
From Coq Require Import Ascii String.
From Verif Require Import Base Str AmountModel AmountSpec AmountProofs InvoiceSpec InvoiceProofs LettersSpec.
Local Open Scope N_scope.

(** ** Numbers in a base *)
Lemma number_from base ds n : fold_left (fun n d => n * base + d) ds n = n * base ^ len ds + number_of base ds.
Proof.
  unfold number_of, len. revert n.
  induction ds as [|d ds IH]; intros n; cbn [fold_left length]; [rewrite N.pow_0_r; lia|].
  rewrite IH, (IH (0 * base + d)), Nat2N.inj_succ, N.pow_succ_r'. lia.
Qed.
Lemma number_cons base d ds : number_of base (d :: ds) = d * base ^ len ds + number_of base ds.
Proof. unfold number_of at 1. cbn [fold_left]. rewrite number_from. lia. Qed.
Lemma number_app base a b : number_of base (a ++ b) = number_of base a * base ^ len b + number_of base b.
Proof. unfold number_of at 1. rewrite fold_left_app, number_from. reflexivity. Qed.
Lemma number_bound base ds : Forall (fun d => d < base) ds -> number_of base ds < base ^ len ds.
Proof.
  unfold len. induction 1 as [|d ds Hd _ IH]; [cbn; lia|]. rewrite number_cons. unfold len. cbn [length].
  rewrite Nat2N.inj_succ, N.pow_succ_r'. nia.
Qed.
Lemma number_inj base ds ds' : Forall (fun d => d < base) ds -> Forall (fun d => d < base) ds' ->
  length ds = length ds' -> number_of base ds = number_of base ds' -> ds = ds'.
Proof.
  intros H. revert ds'. induction H as [|d ds Hd H IH]; intros [|d' ds'] H' Hl Hn; try discriminate; [reflexivity|].
  inversion H' as [|? ? Hd' H'']; subst. rewrite !number_cons in Hn. injection Hl as Hl.
  assert (El : len ds = len ds') by (unfold len; congruence). rewrite <- El in Hn.
  pose proof (number_bound _ _ H). pose proof (number_bound _ _ H''). rewrite <- El in *.
  assert (d = d') by nia. subst d'. f_equal. apply IH; [exact H''|exact Hl|lia].
Qed.
Lemma number_rev l : number_of 256 (rev l) = from_le_bytes l.
Proof.
  induction l as [|b l IH]; [reflexivity|]. cbn [rev from_le_bytes]. rewrite number_app, IH.
  change (len [b]) with 1. rewrite N.pow_1_r. unfold number_of. cbn [fold_left]. lia.
Qed.

(** ** Bits *)
Lemma of_bits_from_app n l : of_bits_from n l = n * 2 ^ len l + of_bits l.
Proof.
  unfold of_bits, len. revert n.
  induction l as [|b l IH]; intros n; cbn [of_bits_from length]; [rewrite N.pow_0_r; lia|].
  rewrite IH, (IH (2 * 0 + N.b2n b)), Nat2N.inj_succ, N.pow_succ_r'. lia.
Qed.
Lemma of_bits_app a b : of_bits (a ++ b) = of_bits a * 2 ^ len b + of_bits b.
Proof.
  rewrite <- of_bits_from_app. unfold of_bits. generalize 0. induction a as [|x a IH]; intros n; [reflexivity|].
  cbn [app of_bits_from]. apply IH.
Qed.
Lemma of_bits_lt l : of_bits l < 2 ^ len l.
Proof. pose proof (of_bits_from_bound 0 l) as X. unfold of_bits. lia. Qed.

Lemma len_flat {A} k (f : A -> list bool) l : (forall x, length (f x) = k) -> length (flat_map f l) = (k * length l)%nat.
Proof. intros E. induction l as [|x l IH]; cbn; [lia|]. rewrite app_length, E, IH. lia. Qed.

Lemma number32_bits ds : Forall (fun d => d < 32) ds -> of_bits (flat_map (to_bits 5) ds) = number_of 32 ds.
Proof.
  induction 1 as [|d ds Hd _ IH]; [reflexivity|]. cbn [flat_map]. rewrite of_bits_app, IH, number_cons.
  unfold of_bits. rewrite of_bits_from_to_bits. rewrite N.mul_0_l, N.add_0_l. change (2 ^ N.of_nat 5) with 32.
  rewrite N.mod_small by exact Hd. do 2 f_equal. unfold len. rewrite (len_flat 5 _ _ (length_to_bits 5)).
  rewrite Nat2N.inj_mul. change (N.of_nat 5) with 5. rewrite N.pow_mul_r. reflexivity.
Qed.
Lemma number256_bits bs : Forall (fun b => b < 256) bs -> of_bits (flat_map (to_bits 8) bs) = number_of 256 bs.
Proof.
  induction 1 as [|d ds Hd _ IH]; [reflexivity|]. cbn [flat_map]. rewrite of_bits_app, IH, number_cons.
  unfold of_bits. rewrite of_bits_from_to_bits. rewrite N.mul_0_l, N.add_0_l. change (2 ^ N.of_nat 8) with 256.
  rewrite N.mod_small by exact Hd. do 2 f_equal. unfold len. rewrite (len_flat 8 _ _ (length_to_bits 8)).
  rewrite Nat2N.inj_mul. change (N.of_nat 8) with 8. rewrite N.pow_mul_r. reflexivity.
Qed.
Lemma to_bits_ext k m n : (forall i, i < N.of_nat k -> N.testbit m i = N.testbit n i) -> to_bits k m = to_bits k n.
Proof.
  induction k as [|k IH]; intros X; [reflexivity|]. cbn [to_bits]. f_equal; [apply X; lia|].
  apply IH. intros i Hi. apply X. lia.
Qed.
Lemma to_bits_of_bits l : to_bits (length l) (of_bits l) = l.
Proof.
  induction l as [|b l IH]; [reflexivity|]. cbn [length to_bits].
  assert (E : of_bits (b :: l) = N.b2n b * 2 ^ len l + of_bits l).
  { change (b :: l) with ([b] ++ l). rewrite of_bits_app. f_equal. }
  pose proof (of_bits_lt l) as Hlt. unfold len in *. f_equal.
  - rewrite E. destruct b; cbn [N.b2n].
    + rewrite N.mul_1_l. rewrite N.testbit_true.
      rewrite <- (N.mul_1_l (2 ^ N.of_nat (length l))) at 1. rewrite N.div_add_l by (apply N.pow_nonzero; lia).
      rewrite N.div_small by exact Hlt. reflexivity.
    + rewrite N.mul_0_l, N.add_0_l. rewrite N.testbit_false. rewrite N.div_small by exact Hlt. reflexivity.
  - transitivity (to_bits (length l) (of_bits l)); [|exact IH]. apply to_bits_ext. intros i Hi. rewrite E.
    rewrite <- (N.mod_pow2_bits_low (N.b2n b * 2 ^ N.of_nat (length l) + of_bits l) (N.of_nat (length l)) i) by exact Hi.
    rewrite N.add_comm, N.mod_add by (apply N.pow_nonzero; lia). rewrite N.mod_small by exact Hlt. reflexivity.
Qed.
Lemma groups8_split l : exists t, l = concat (groups8 l) ++ t /\ (length t < 8)%nat /\
  Forall (fun g => length g = 8%nat) (groups8 l).
Proof.
  assert (H : forall n l, (length l <= n)%nat -> exists t, l = concat (groups8 l) ++ t /\ (length t < 8)%nat /\
    Forall (fun g => length g = 8%nat) (groups8 l)).
  { induction n as [|n IH]; intros x Hx.
    - destruct x; [|simpl in Hx; lia]. exists []. cbn. repeat split; auto; lia.
    - destruct x as [|a [|b [|c [|d [|e [|f [|g [|h r]]]]]]]];
        try (eexists; split; [cbn [groups8 concat app]; reflexivity|split; [simpl; lia|constructor]]).
      destruct (IH r ltac:(simpl in Hx; lia)) as (t & E & Hl & Hf). exists t. cbn [groups8 concat app].
      rewrite <- E. split; [reflexivity|]. split; [exact Hl|]. constructor; [reflexivity|exact Hf]. }
  apply (H (length l)). lia.
Qed.
Lemma groups8_bits l : flat_map (to_bits 8) (map of_bits (groups8 l)) = concat (groups8 l).
Proof.
  destruct (groups8_split l) as (t & _ & _ & Hf). induction Hf as [|g gs Hg _ IH]; [reflexivity|].
  cbn [map flat_map concat]. rewrite IH. f_equal. rewrite <- Hg. apply to_bits_of_bits.
Qed.

(** ** Letters *)
Lemma index_of_Some c l i : index_of c l = Some i -> nth_error l (N.to_nat i) = Some c.
Proof.
  revert i. induction l as [|x l IH]; intros i; cbn [index_of]; [discriminate|].
  destruct (is_char c x) eqn:Ec.
  - intros X. injection X as <-. apply is_char_eq in Ec. subst. reflexivity.
  - destruct (index_of c l) as [j|]; [|discriminate]. cbn [option_map]. intros X. injection X as <-.
    rewrite N2Nat.inj_succ. cbn [nth_error]. apply IH. reflexivity.
Qed.
Lemma letter_index_iff c i : letter_index c = Some i <-> i < 32 /\ nth_error amount_letters (N.to_nat i) = Some c.
Proof.
  split.
  - intros X. apply index_of_Some in X. split; [|exact X].
    assert (Hl : (N.to_nat i < length amount_letters)%nat) by (apply nth_error_Some; change ENC_BASE32_NODIGIT with amount_letters in X; congruence).
    change (length amount_letters) with 32%nat in Hl. lia.
  - intros [Hi X]. rewrite <- (N2Nat.id i). revert X. generalize (N.to_nat i) (ltac:(lia) : (N.to_nat i < 32)%nat).
    intros n Hn. do 32 (destruct n as [|n]; [cbn; intros X; injection X as <-; vm_compute; reflexivity|]). lia.
Qed.
Lemma letters_index_iff s l : letters_index s = Some l <-> letters_for s l.
Proof.
  revert l. induction s as [|c s IH]; intros l; cbn [letters_index].
  - split; [intros X; injection X as <-; constructor|intros X; inversion X; reflexivity].
  - destruct (letter_index c) as [i|] eqn:Ei.
    + destruct (letters_index s) as [l'|].
      * split.
        -- intros X. injection X as <-. constructor; [apply letter_index_iff, Ei|apply IH; reflexivity].
        -- intros X. inversion X as [|? d ? ds Hd Hs]; subst. apply letter_index_iff in Hd.
           apply IH in Hs. congruence.
      * split; [discriminate|]. intros X. inversion X as [|? d ? ds Hd Hs]; subst. apply IH in Hs. discriminate.
    + split; [discriminate|]. intros X. inversion X as [|? d ? ds Hd Hs]; subst. apply letter_index_iff in Hd. congruence.
Qed.
Lemma letters_for_lt s l : letters_for s l -> Forall (fun d => d < 32) l.
Proof. induction 1 as [|? ? ? ? [X _] _ IH]; constructor; assumption. Qed.
Lemma letters_for_length s l : letters_for s l -> length l = length s.
Proof. induction 1; cbn; congruence. Qed.
Lemma letters_for_inj s s' l : letters_for s l -> letters_for s' l -> s = s'.
Proof.
  intros X. revert s'. induction X as [|c d s l [_ Hd] _ IH]; intros s' Y; inversion Y as [|c' ? s'' ? [_ Hd'] Hs]; subst; [reflexivity|].
  f_equal; [congruence|apply IH, Hs].
Qed.
Lemma nth_error_letter d : d < 32 -> nth_error amount_letters (N.to_nat d) = Some (letter d).
Proof.
  intros Hd. unfold letter. change ENC_BASE32_NODIGIT with amount_letters.
  apply nth_error_nth'. change (length amount_letters) with 32%nat. lia.
Qed.

(** ** Decoding *)
(** The bits left over after the full bytes: none of a length which an encoding has exceeds 4. *)
Lemma lengths (n m k : N) : 5 * n = 8 * m + k -> k < 8 ->
  ((n mod 8 =? 1) || (n mod 8 =? 3) || (n mod 8 =? 6)) = false <-> k < 5.
Proof.
  intros H Hk. pose proof (N.div_mod n 8 ltac:(lia)) as D. pose proof (N.mod_lt n 8 ltac:(lia)) as L.
  remember (n mod 8) as r. remember (n / 8) as t. rewrite !orb_false_iff, !N.eqb_neq. lia.
Qed.

Lemma decode_iff s bytes : base32_decode s = Ok bytes <-> exists spare, spells s bytes spare.
Proof.
  unfold base32_decode. split.
  - destruct (_ || _) eqn:Er; [discriminate|]. destruct (letters_index s) as [ds|] eqn:Ed; [|discriminate].
    intros X. apply Ok_inj in X. subst bytes. apply letters_index_iff in Ed.
    destruct (groups8_split (flat_map (to_bits 5) ds)) as (t & Et & Ht & Hg). exists (of_bits t), ds, (len t).
    assert (Hlen : 5 * len s = 8 * len (map of_bits (groups8 (flat_map (to_bits 5) ds))) + len t).
    { apply (f_equal (@length bool)) in Et. rewrite app_length, (len_flat 5 _ _ (length_to_bits 5)) in Et.
      assert (Hc : forall gs : list (list bool), Forall (fun g => length g = 8%nat) gs -> length (concat gs) = (8 * length gs)%nat)
        by (clear; induction 1 as [|g gs Hg _ IH]; cbn; [lia|]; rewrite app_length, IH, Hg; lia).
      rewrite (Hc _ Hg) in Et. rewrite (letters_for_length _ _ Ed) in Et. unfold len. rewrite map_length. lia. }
    split; [exact Ed|]. split; [apply groups8_bytes|]. split; [exact Hlen|]. split.
    { apply (lengths _ _ _ Hlen); [unfold len; lia|exact Er]. }
    split; [apply of_bits_lt|].
    rewrite <- (number32_bits _ (letters_for_lt _ _ Ed)). rewrite Et at 1. rewrite of_bits_app. do 2 f_equal.
    rewrite <- number256_bits by apply groups8_bytes. rewrite groups8_bits. reflexivity.
  - intros (spare & ds & k & Hd & Hb & Hlen & Hk & Hsp & Hn).
    assert (Er := proj2 (lengths _ _ _ Hlen ltac:(lia)) Hk). rewrite Er.
    rewrite (proj2 (letters_index_iff _ _) Hd). f_equal.
    destruct (groups8_split (flat_map (to_bits 5) ds)) as (t & Et & Ht & Hg).
    set (bs := map of_bits (groups8 (flat_map (to_bits 5) ds))).
    assert (Hlen' : 5 * len s = 8 * len bs + len t).
    { apply (f_equal (@length bool)) in Et. rewrite app_length, (len_flat 5 _ _ (length_to_bits 5)) in Et.
      assert (Hc : forall gs : list (list bool), Forall (fun g => length g = 8%nat) gs -> length (concat gs) = (8 * length gs)%nat)
        by (clear; induction 1 as [|g gs Hg _ IH]; cbn; [lia|]; rewrite app_length, IH, Hg; lia).
      rewrite (Hc _ Hg) in Et. rewrite (letters_for_length _ _ Hd) in Et. unfold len, bs. rewrite map_length. lia. }
    assert (Ekt : len t = k) by (unfold len in *; lia).
    assert (Hlb : length bs = length bytes) by (unfold len in *; lia).
    assert (Hbs : Forall (fun b => b < 256) bs) by apply groups8_bytes.
    apply (number_inj 256); [exact Hbs|exact Hb|exact Hlb|].
    assert (Hn' : number_of 32 ds = number_of 256 bs * 2 ^ k + of_bits t).
    { rewrite <- (number32_bits _ (letters_for_lt _ _ Hd)). rewrite Et at 1. rewrite of_bits_app, Ekt. do 2 f_equal.
      rewrite <- number256_bits by exact Hbs. unfold bs. rewrite groups8_bits. reflexivity. }
    pose proof (of_bits_lt t) as Hlt. rewrite Ekt in Hlt. rewrite Hn' in Hn. clear - Hn Hlt Hsp. nia.
Qed.

Lemma amount_from_str_iff s a : amount_from_str s = Ok a <-> reads_amount s a.
Proof.
  unfold amount_from_str. split.
  - destruct (base32_decode s) as [bs| |] eqn:Ed; cbn [rbind]; [|discriminate..].
    destruct (8 <? len bs) eqn:El; [discriminate|]. intros X. apply Ok_inj in X. subst a.
    apply decode_iff in Ed as (spare & Ed). apply N.ltb_ge in El.
    exists bs, spare. rewrite number_rev. auto.
  - intros (bs & spare & Hs & Hl & ->). rewrite (proj2 (decode_iff s bs)) by eauto. cbn [rbind].
    apply N.ltb_ge in Hl. rewrite Hl, number_rev. reflexivity.
Qed.

(** ** Encoding *)
Lemma map_letter_for ds : Forall (fun d => d < 32) ds -> letters_for (map letter ds) ds.
Proof. induction 1 as [|d ds Hd _ IH]; constructor; [split; [exact Hd|apply nth_error_letter, Hd]|exact IH]. Qed.
Lemma groups5_pad l : exists k, concat (groups5 l) = l ++ repeat false k /\ (k < 5)%nat.
Proof.
  induction l as [| | | | |a b c d e r IH] using list_5_ind.
  - exists 0%nat. split; [reflexivity|lia].
  - exists 4%nat. split; [reflexivity|lia].
  - exists 3%nat. split; [reflexivity|lia].
  - exists 2%nat. split; [reflexivity|lia].
  - exists 1%nat. split; [reflexivity|lia].
  - destruct IH as (k & E & Hk). exists k. cbn [groups5 concat app]. rewrite E. auto.
Qed.
Lemma of_bits_zeros k : of_bits (repeat false k) = 0.
Proof. unfold of_bits. induction k; [reflexivity|]. cbn [repeat of_bits_from]. exact IHk. Qed.
Lemma encode_spells bytes : Forall (fun b => b < 256) bytes -> spells (base32_encode bytes) bytes 0.
Proof.
  intros Hb. unfold base32_encode. set (gs := groups5 (flat_map (to_bits 8) bytes)).
  destruct (groups5_pad (flat_map (to_bits 8) bytes)) as (k & Ek & Hk). fold gs in Ek.
  destruct (groups5_spec (flat_map (to_bits 8) bytes)) as (pad & Ep & _ & Hg & Hgl). fold gs in Ep, Hg, Hgl.
  assert (pad = repeat false k) by (rewrite Ek in Ep; apply app_inv_head in Ep; congruence). subst pad.
  rewrite repeat_length, (len_flat 8 _ _ (length_to_bits 8)) in Hgl.
  assert (Hds : Forall (fun d => d < 32) (map of_bits gs)).
  { apply Forall_map. eapply Forall_impl; [|exact Hg]. intros g (a & b & c & d & e & ->). apply of_bits_lt. }
  assert (Hbits : flat_map (to_bits 5) (map of_bits gs) = concat gs).
  { clear - Hg. induction Hg as [|g gs (a & b & c & d & e & ->) _ IH]; [reflexivity|]. cbn [map flat_map concat].
    rewrite IH. f_equal. exact (to_bits_of_bits [a; b; c; d; e]). }
  exists (map of_bits gs), (N.of_nat k).
  split; [rewrite <- map_map; apply map_letter_for, Hds|]. split; [exact Hb|].
  split; [unfold len; rewrite map_length; lia|]. split; [lia|].
  split; [apply N.neq_0_lt_0, N.pow_nonzero; lia|].
  rewrite <- (number32_bits _ Hds), Hbits, Ek, of_bits_app, of_bits_zeros. unfold len at 1. rewrite repeat_length.
  rewrite number256_bits by exact Hb. reflexivity.
Qed.
Lemma spells_inj s s' bytes spare : spells s bytes spare -> spells s' bytes spare -> s = s'.
Proof.
  intros (ds & k & Hd & Hb & Hl & Hk & _ & Hn) (ds' & k' & Hd' & _ & Hl' & Hk' & _ & Hn').
  assert (El : len s = len s') by lia. assert (k = k') by lia. subst k'.
  pose proof (letters_for_length _ _ Hd). pose proof (letters_for_length _ _ Hd').
  assert (ds = ds').
  { apply (number_inj 32); [exact (letters_for_lt _ _ Hd)|exact (letters_for_lt _ _ Hd')|unfold len in El; lia|congruence]. }
  subst ds'. exact (letters_for_inj _ _ _ Hd Hd').
Qed.

Lemma trim_last l : trim_zero_bytes l <> [] -> last (trim_zero_bytes l) 0 <> 0.
Proof.
  induction l as [|b l IH]; cbn [trim_zero_bytes]; [congruence|].
  destruct (trim_zero_bytes l) as [|x t]; [|intros _; cbn [last]; apply IH; discriminate].
  destruct (b =? 0) eqn:Eb; [congruence|]. intros _. cbn. apply N.eqb_neq, Eb.
Qed.
Lemma display_writes a : u64 a -> writes_amount a (amount_display a).
Proof.
  intros Ha. unfold amount_display. destruct (significant_spec (to_le_bytes 8 a) _ (to_le_bytes_bound 8 a)) as [Hb _].
  exists (significant_bytes (to_le_bytes 8 a)). split; [apply encode_spells, Hb|].
  rewrite number_rev, from_le_significant, from_to_le by exact Ha.
  unfold significant_bytes. pose proof (trim_last (to_le_bytes 8 a)) as Ht.
  destruct (trim_zero_bytes (to_le_bytes 8 a)) as [|x t] eqn:E.
  - cbn [to_le_bytes firstn]. split; [discriminate|]. split; [reflexivity|]. left. reflexivity.
  - split; [discriminate|]. split; [reflexivity|]. right. apply Ht. discriminate.
Qed.
Lemma from_le_last l : last l 0 <> 0 -> 256 ^ len l <= 256 * from_le_bytes l.
Proof.
  unfold len. induction l as [|b l IH]; [cbn; congruence|]. destruct l as [|c l].
  - cbn [last length from_le_bytes]. intros X. change (256 ^ N.of_nat 1) with 256. lia.
  - intros X. change (last (b :: c :: l) 0) with (last (c :: l) 0) in X. specialize (IH X).
    remember (c :: l) as r. cbn [length from_le_bytes]. rewrite Nat2N.inj_succ, N.pow_succ_r'. lia.
Qed.
Lemma written_inj l l' : Forall (fun b => b < 256) l -> Forall (fun b => b < 256) l' -> l <> [] -> l' <> [] ->
  (len l = 1 \/ last l 0 <> 0) -> (len l' = 1 \/ last l' 0 <> 0) ->
  from_le_bytes l = from_le_bytes l' -> l = l'.
Proof.
  intros Hb Hb' Hn Hn' Hs Hs' E.
  assert (P : forall l l', Forall (fun b => b < 256) l -> (len l' = 1 \/ last l' 0 <> 0) -> l <> [] ->
    from_le_bytes l = from_le_bytes l' -> len l' <= len l).
  { clear. intros l l' Hb Hs Hn E. assert (1 <= len l) by (destruct l; [congruence|unfold len; cbn [length]; lia]).
    destruct Hs as [Hs|Hs]; [lia|]. apply from_le_last in Hs. pose proof (AmountProofs.from_le_bound _ Hb) as B.
    rewrite <- E in Hs. destruct (N.le_gt_cases (len l') (len l)) as [L|L]; [exact L|exfalso].
    pose proof (N.pow_le_mono_r 256 (len l + 1) (len l') ltac:(lia) ltac:(lia)) as Q.
    rewrite N.pow_add_r, N.pow_1_r in Q. lia. }
  pose proof (P l l' Hb Hs' Hn E). pose proof (P l' l Hb' Hs Hn' (eq_sym E)).
  assert (El : length l = length l') by (unfold len in *; lia).
  rewrite <- (rev_involutive l), <- (rev_involutive l'). f_equal. apply (number_inj 256).
  - apply Forall_rev, Hb.
  - apply Forall_rev, Hb'.
  - rewrite !rev_length. exact El.
  - rewrite !number_rev. exact E.
Qed.
Lemma writes_inj a s s' : writes_amount a s -> writes_amount a s' -> s = s'.
Proof.
  intros (l & Hs & Hn & Ea & Hl) (l' & Hs' & Hn' & Ea' & Hl').
  rewrite number_rev in Ea, Ea'.
  assert (l = l').
  { destruct Hs as (? & ? & _ & Hb & _), Hs' as (? & ? & _ & Hb' & _). apply written_inj; auto; congruence. }
  subst l'. exact (spells_inj _ _ _ _ Hs Hs').
Qed.
Lemma amount_display_iff a s : u64 a -> amount_display a = s <-> writes_amount a s.
Proof.
  intros Ha. split; [intros <-; apply display_writes, Ha|]. intros Hw. exact (writes_inj a _ _ (display_writes a Ha) Hw).
Qed.

(** ** Coin amounts *)
Lemma unseparated_eq s t : unseparated s t <-> t = filter notsep s.
Proof.
  split; [|intros ->; apply unseparated_filter].
  induction 1 as [|c s s' Hc _ IH|c s s' Hc _ IH]; [reflexivity|..]; cbn [filter].
  - rewrite (sep_notsep c Hc). exact IH.
  - destruct (notsep c) eqn:En; [rewrite IH; reflexivity|]. exfalso. apply Hc. unfold notsep in En.
    apply negb_false_iff, orb_true_iff in En. unfold separator.
    destruct En as [En|En]; apply is_char_eq in En; auto.
Qed.
Lemma coin_parts_iff t I F P : coin_parts t I F P <->
  exists R, match split_once "."%char t with Some p => p | None => (t, ["0"%char]) end = (I, R) /\
    match split_once "~"%char R with Some p => p | None => (R, []) end = (F, P).
Proof.
  split.
  - intros [J Nj|J G Nj Ng|J G Q Nj Ng].
    + exists ["0"%char]. rewrite (proj2 (split_once_None _ _) Nj). split; reflexivity.
    + exists G. rewrite split_once_app by exact Nj. split; [reflexivity|]. rewrite (proj2 (split_once_None _ _) Ng). reflexivity.
    + eexists. rewrite split_once_app by exact Nj. split; [reflexivity|]. rewrite split_once_app by exact Ng. reflexivity.
  - intros (R & E1 & E2). destruct (split_once "."%char t) as [[I' R']|] eqn:Es.
    + injection E1 as -> ->. apply split_once_Some in Es as (-> & Ni).
      destruct (split_once "~"%char R) as [[F' P']|] eqn:Er.
      * injection E2 as -> ->. apply split_once_Some in Er as (-> & Nf). constructor; assumption.
      * injection E2 as -> <-. apply split_once_None in Er. constructor; assumption.
    + injection E1 as -> <-. apply split_once_None in Es. cbn in E2. injection E2 as <- <-. constructor. exact Es.
Qed.
Lemma coin_from_str_iff s c : coin_from_str s = Ok c <-> reads_coin s c.
Proof.
  unfold coin_from_str. change (filter (fun c : ascii => negb (is_char c " "%char || is_char c "_"%char)) s) with (filter notsep s).
  set (t := filter notsep s).
  destruct (match split_once "."%char t with Some p => p | None => (t, lit "0") end) as [I R] eqn:E1.
  destruct (match split_once "~"%char R with Some p => p | None => (R, []) end) as [F P] eqn:E2.
  assert (Hp : coin_parts t I F P) by (apply coin_parts_iff; exists R; split; assumption).
  assert (Hu : forall I' F' P', coin_parts t I' F' P' -> I' = I /\ F' = F /\ P' = P).
  { intros I' F' P' X. apply coin_parts_iff in X as (R' & X1 & X2). pose proof (eq_trans (eq_sym E1) X1) as X3. injection X3 as <- <-.
    rewrite E2 in X2. injection X2 as <- <-. auto. }
  assert (Pn : forall x n, parse_uint U64MAX x = Some n <-> number (2 ^ 64) x n) by (intros x n; exact (number_parse U64MAX x n)).
  assert (Hprec : forall d, match P with [] => Ok (len F) | _ => ok_or InvalidPrecision (parse_uint U64MAX P) end = Ok d <->
    (P = [] /\ d = len F) \/ number (2 ^ 64) P d).
  { intros d. destruct P as [|p P].
    - split; [intros X; apply Ok_inj in X; auto|]. intros [[_ ->]|X]; [reflexivity|].
      exfalso. destruct X as (_ & ds & (Nd & _) & [X|X]); [congruence|discriminate].
    - split.
      + intros X. right. apply Pn. destruct (parse_uint U64MAX (p :: P)); [apply Ok_inj in X; congruence|discriminate].
      + intros [[X _]|X]; [discriminate|]. apply Pn in X. rewrite X. reflexivity. }
  split.
  - intros X. destruct (match P with [] => Ok (len F) | _ => ok_or InvalidPrecision (parse_uint U64MAX P) end) as [d| |] eqn:Ed; cbn [rbind] in X; [|discriminate..].
    destruct (parse_uint U64MAX I) as [i|] eqn:Ei; cbn [ok_or rbind] in X; [|discriminate].
    destruct (parse_uint U64MAX F) as [f|] eqn:Ef; cbn [ok_or rbind] in X; [|discriminate].
    destruct (U8MAX <? d); [discriminate|]. destruct (precision_of_u8 d) as [p|] eqn:Epp; cbn [ok_or rbind] in X; [|discriminate].
    apply Ok_inj in X. subst c. exists t, I, F, P. cbn [ca_int ca_fract ca_precision]. apply precision_of_u8_inv in Epp. subst d.
    split; [apply unseparated_eq; reflexivity|]. split; [exact Hp|]. split; [apply Pn, Ei|]. split; [apply Pn, Ef|]. apply Hprec. reflexivity.
  - intros (t' & I' & F' & P' & Hs & Hq & Hi & Hf & Hd). apply unseparated_eq in Hs. fold t in Hs. subst t'.
    apply Hu in Hq as (-> & -> & ->). apply Hprec in Hd. rewrite Hd. cbn [rbind]. apply Pn in Hi, Hf. rewrite Hi, Hf. cbn [ok_or rbind].
    pose proof (decimals_le (ca_precision c)) as Hle.
    replace (U8MAX <? decimals (ca_precision c)) with false by (symmetry; apply N.ltb_ge; change U8MAX with 255; lia).
    rewrite decimals_inv. cbn [ok_or rbind]. destruct c; reflexivity.
Qed.
