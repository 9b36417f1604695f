From Coq Require Import Ascii String.
From Verif Require Import Base Str AmountModel AmountSpec AmountProofs InvoiceModel InvoiceSpec.
Local Open Scope N_scope.

(** ** Character classes by enumeration *)
Lemma in_letters (P : ascii -> bool) l c : forallb P l = true -> In c l -> P c = true.
Proof. rewrite forallb_forall. auto. Qed.

Lemma id_text_no c s : id_text s -> ~ In c id_letters -> ~ In c s.
Proof. unfold id_text. rewrite Forall_forall. intros H N X. exact (N (H c X)). Qed.

Lemma undashed_In c s : In c (undashed s) -> In c s.
Proof. unfold undashed. rewrite filter_In. tauto. Qed.

Lemma nodash_undashed s : nodash s = undashed s.
Proof.
  unfold nodash, undashed. apply filter_ext. intros c. f_equal.
  destruct (Ascii.eqb_spec c "-"%char) as [->|H]; [reflexivity|]. apply is_char_false. exact H.
Qed.

Lemma undashed_app a b : undashed (a ++ b) = undashed a ++ undashed b.
Proof. apply filter_app. Qed.

Lemma id_text_undashed s : id_text s -> id_text (undashed s).
Proof. unfold id_text. rewrite !Forall_forall. intros H c X. apply H. apply undashed_In. exact X. Qed.

Ltac notin := let H := fresh in intros H; vm_compute in H; intuition discriminate.

(** ** C08: allocations *)
Lemma number_parse max s n : parse_uint max s = Some n <-> number (max + 1) s n.
Proof.
  unfold number, decimal. split.
  - intros H. pose proof (parse_uint_bound _ _ _ H). split; [lia|].
    unfold parse_uint in H. destruct s as [|c r]; [discriminate|].
    destruct (is_char c "+"%char) eqn:E.
    + apply is_char_eq in E. subst c. destruct r as [|d r]; [discriminate|].
      destruct (dec_value (d :: r)) eqn:V; [|discriminate].
      destruct (n0 <=? max); [|discriminate]. injection H as ->.
      exists (d :: r). repeat split; [congruence|exact V|right; reflexivity].
    + destruct (dec_value (c :: r)) eqn:V; [|discriminate].
      destruct (n0 <=? max); [|discriminate]. injection H as ->.
      exists (c :: r). repeat split; [congruence|exact V|left; reflexivity].
  - intros [B [ds [[N V] [->| ->]]]].
    + unfold parse_uint. destruct ds as [|c r]; [congruence|].
      assert (F : is_char c "+"%char = false).
      { apply is_digit_plus. unfold is_digit. unfold dec_value in V. cbn in V.
        destruct (char_digit c); [reflexivity|discriminate]. }
      rewrite F, V. replace (n <=? max) with true by (symmetry; apply N.leb_le; lia). reflexivity.
    + unfold parse_uint. rewrite is_char_refl. destruct ds as [|c r]; [congruence|]. rewrite V.
      replace (n <=? max) with true by (symmetry; apply N.leb_le; lia). reflexivity.
Qed.

Lemma dec_print_no c n : is_digit c = false -> ~ In c (dec_print n).
Proof. intros H. apply (digits_no c _ H). apply dec_print_digits. Qed.

Lemma allocation_round_trip a : al_index a < 2 ^ 32 -> u64 (al_fraction a) ->
  allocation_from_str (allocation_display a) = Ok a.
Proof.
  intros Hi Hf. apply u64_le in Hf. unfold allocation_from_str, allocation_display.
  rewrite split_once_app by (apply dec_print_no; reflexivity).
  rewrite parse_uint_print by (unfold U32MAX; lia). cbn [ok_or rbind].
  rewrite parse_uint_print by exact Hf. cbn [ok_or rbind]. destruct a; reflexivity.
Qed.

Lemma allocation_parse s a : allocation_from_str s = Ok a <->
  exists F I, s = F ++ "@"%char :: I /\ ~ In "@"%char F /\
    number (2 ^ 64) F (al_fraction a) /\ number (2 ^ 32) I (al_index a).
Proof.
  unfold allocation_from_str. split.
  - destruct (split_once "@"%char s) as [[F I]|] eqn:S; [|discriminate].
    apply split_once_Some in S. destruct S as [-> NF].
    destruct (parse_uint U32MAX I) as [i|] eqn:PI; cbn [ok_or rbind]; [|discriminate].
    destruct (parse_uint U64MAX F) as [f|] eqn:PF; cbn [ok_or rbind]; [|discriminate].
    intros H. apply Ok_inj in H. subst a. exists F, I.
    apply number_parse in PI. apply number_parse in PF.
    change (U64MAX + 1) with (2 ^ 64) in PF. change (U32MAX + 1) with (2 ^ 32) in PI. auto.
  - intros (F & I & -> & NF & PF & PI). rewrite split_once_app by exact NF.
    change (2 ^ 64) with (U64MAX + 1) in PF. change (2 ^ 32) with (U32MAX + 1) in PI.
    apply number_parse in PI. apply number_parse in PF. rewrite PI. cbn [ok_or rbind].
    rewrite PF. cbn [ok_or rbind]. destruct a; reflexivity.
Qed.

Lemma allocation_no_panic s : allocation_from_str s <> Panic.
Proof.
  unfold allocation_from_str. destruct (split_once "@"%char s) as [[F I]|]; [|discriminate].
  destruct (parse_uint U32MAX I); cbn [ok_or rbind]; [|discriminate].
  destruct (parse_uint U64MAX F); cbn [ok_or rbind]; discriminate.
Qed.

Lemma allocation_injective a b : al_index a < 2 ^ 32 -> u64 (al_fraction a) ->
  al_index b < 2 ^ 32 -> u64 (al_fraction b) ->
  allocation_display a = allocation_display b -> a = b.
Proof.
  intros A1 A2 B1 B2 E. pose proof (allocation_round_trip a A1 A2) as X.
  rewrite E, (allocation_round_trip b B1 B2) in X. apply Ok_inj in X. congruence.
Qed.

(** ** C09: transports *)
Lemma split_once_str_sep a b : ~ In ":"%char a ->
  split_once_str TRANSPORT_HOST_SEP (a ++ TRANSPORT_HOST_SEP ++ b) = Some (a, b).
Proof.
  induction a as [|x a IH]; intros H.
  - change (@nil ascii ++ TRANSPORT_HOST_SEP ++ b) with (TRANSPORT_HOST_SEP ++ b).
    unfold split_once_str. destruct b; cbn; rewrite ?is_char_refl; reflexivity.
  - cbn [app split_once_str]. unfold TRANSPORT_HOST_SEP at 1. cbn [lit list_ascii_of_string strip_prefix].
    replace (is_char ":"%char x) with false.
    + rewrite IH by (intros X; apply H; right; exact X). reflexivity.
    + symmetry. apply is_char_false. intros <-. apply H. left. reflexivity.
Qed.

Lemma split_once_str_Some p s a b : split_once_str p s = Some (a, b) -> s = a ++ p ++ b.
Proof.
  revert a b. induction s as [|x s IH]; intros a b; cbn [split_once_str].
  - destruct (strip_prefix p []) eqn:E; [|discriminate]. intros H. injection H as <- <-.
    apply strip_prefix_Some in E. exact E.
  - destruct (strip_prefix p (x :: s)) eqn:E.
    + intros H. injection H as <- <-. apply strip_prefix_Some in E. exact E.
    + destruct (split_once_str p s) as [[a' b']|] eqn:S; [|discriminate].
      intros H. injection H as <- <-. cbn. f_equal. apply IH. reflexivity.
Qed.

Lemma transport_parse s t : transport_from_str s = Ok t <->
  exists proto host, host <> [] /\ s = proto ++ lit "://" ++ host /\ In (proto, t) (protocols host).
Proof.
  unfold transport_from_str. split.
  - destruct (split_once_str TRANSPORT_HOST_SEP s) as [[p h]|] eqn:S; [|discriminate].
    apply split_once_str_Some in S. subst s. destruct h as [|c h]; [discriminate|].
    intros H. exists p, (c :: h). split; [congruence|]. split; [reflexivity|].
    unfold protocols.
    repeat match type of H with
           | (if streqb p ?x then _ else _) = _ =>
               destruct (streqb p x) eqn:E;
               [apply streqb_eq in E; subst p; apply Ok_inj in H; subst t; cbn [In]; tauto|clear E]
           end. discriminate.
  - intros (p & h & Nh & -> & Hin).
    assert (Np : ~ In ":"%char p).
    { cbn [protocols In] in Hin. intuition match goal with H : (_, _) = (_, _) |- _ => injection H as <- <- end;
        cbn in *; intuition discriminate. }
    change (lit "://") with TRANSPORT_HOST_SEP. rewrite (split_once_str_sep p h Np).
    destruct h as [|c h]; [congruence|].
    cbn [protocols In] in Hin.
    repeat (destruct Hin as [Hin|Hin]; [injection Hin as <- <-; reflexivity|]). destruct Hin.
Qed.

Lemma transport_round_trip t :
  match t with JsonRpc _ h | RestHttp _ h | WebSockets _ h => h <> [] | Storm => True | UnspecifiedMeans => False end ->
  transport_from_str (transport_display t) = Ok t.
Proof.
  intros H. apply transport_parse.
  destruct t as [[] h|[] h|[] h| |]; try contradiction.
  1: exists (lit "rpcs"), h. 2: exists (lit "rpc"), h. 3: exists (lit "https"), h.
  4: exists (lit "http"), h. 5: exists (lit "wss"), h. 6: exists (lit "ws"), h.
  7: exists (lit "storm"), (lit "_/").
  all: repeat split; try exact H; try discriminate; cbn [protocols In]; tauto.
Qed.

Lemma transport_no_panic s : transport_from_str s <> Panic.
Proof.
  unfold transport_from_str. destruct (split_once_str TRANSPORT_HOST_SEP s) as [[p h]|]; [|discriminate].
  destruct h; [discriminate|].
  repeat match goal with |- (if ?b then _ else _) <> _ => destruct b; [discriminate|] end. discriminate.
Qed.

(** ** C06: beneficiary payload *)
Lemma p2v_payload_bytes C p : address_ok C (p2v_address p) ->
  exists l, (forall E, @p2v_payload E p = Ok l) /\ bytes 34 l.
Proof.
  unfold p2v_payload. destruct p as [m a]. cbn [p2v_method p2v_address].
  intros H.
  assert (M : byte (method_byte m)) by (destruct m; unfold byte; cbn; lia).
  assert (Z : forall k, Forall byte (repeat 0 k)).
  { intros k. apply Forall_forall. intros x X. apply repeat_spec in X. subst. unfold byte. lia. }
  assert (G : forall h t, byte t -> len h <= 32 -> Forall byte h ->
    exists l, (forall E : Type, (if 32 <? len h then Panic else
       Ok (method_byte m :: t :: h ++ repeat 0 (32 - length h)) : result E (list N)) = Ok l) /\ bytes 34 l).
  { intros h t Ht Lh Fh. exists (method_byte m :: t :: h ++ repeat 0 (32 - length h)). split.
    - intros E. replace (32 <? len h) with false by (symmetry; apply N.ltb_ge; exact Lh). reflexivity.
    - split.
      + unfold len in *. cbn [length]. rewrite app_length, repeat_length. lia.
      + constructor; [exact M|]. constructor; [exact Ht|]. apply Forall_app. split; [exact Fh|apply Z]. }
  destruct a; cbn [address_ok] in H; unfold bytes in H; apply G; try tauto; try (unfold byte; vm_compute; reflexivity);
    destruct H as [H1 H2]; try (destruct H1; lia); lia.
Qed.

Lemma slice_firstn m t h z k : length h = k -> slice 2 (2 + k) (m :: t :: h ++ z) = h.
Proof.
  intros H. unfold slice. replace (2 + k - 2)%nat with k by lia. cbn [skipn].
  rewrite firstn_app, H. replace (k - k)%nat with 0%nat by lia.
  rewrite firstn_O, app_nil_r. rewrite <- H. apply firstn_all.
Qed.

Lemma p2v_round_trip C p l : address_ok C (p2v_address p) -> @p2v_payload Pay2VoutError p = Ok l ->
  p2v_try_from C l = Ok p.
Proof.
  intros H P. unfold p2v_payload in P. destruct p as [m a]. cbn [p2v_method p2v_address] in *.
  assert (M : method_of_byte (method_byte m) = Some m) by (destruct m; reflexivity).
  destruct a as [h|h|h|h|h]; cbn [address_ok] in H; unfold bytes in H;
    (destruct (32 <? len h); [discriminate|]); apply Ok_inj in P; subst l;
    unfold p2v_try_from; cbn [nth]; rewrite M; cbn [ok_or rbind].
  - rewrite (slice_firstn _ _ _ _ 20) by (unfold len in H; lia). reflexivity.
  - rewrite (slice_firstn _ _ _ _ 20) by (unfold len in H; lia). reflexivity.
  - rewrite (slice_firstn _ _ _ _ 20) by (unfold len in H; lia). reflexivity.
  - rewrite (slice_firstn _ _ _ _ 32) by (unfold len in H; lia). reflexivity.
  - rewrite (slice_firstn _ _ _ _ 32) by (unfold len in H; lia). cbn.
    destruct H as [_ ->]. reflexivity.
Qed.

(** The decoder, exactly. *)
Lemma p2v_decode C m t r p : bytes 34 (m :: t :: r) ->
  (p2v_try_from C (m :: t :: r) = Ok p <->
   ((m = 0 /\ p2v_method p = OpretFirst) \/ (m = 1 /\ p2v_method p = TapretFirst)) /\
   ((t = 1 /\ p2v_address p = Pkh (firstn 20 r)) \/ (t = 2 /\ p2v_address p = Sh (firstn 20 r)) \/
    (t = 3 /\ p2v_address p = Wpkh (firstn 20 r)) \/ (t = 4 /\ p2v_address p = Wsh r) \/
    (t = 5 /\ p2v_address p = Tr r /\ tapkey_ok C r = true))).
Proof.
  intros [L _].
  assert (Lr : length r = 32%nat) by (unfold len in L; cbn [length] in L; lia).
  assert (S20 : slice 2 22 (m :: t :: r) = firstn 20 r) by reflexivity.
  assert (S32 : slice 2 34 (m :: t :: r) = r).
  { unfold slice. cbn [skipn]. replace (34 - 2)%nat with (length r) by lia. apply firstn_all. }
  unfold p2v_try_from. cbn [nth]. rewrite S20, S32. clear S20 S32 L.
  destruct p as [pm pa]. cbn [p2v_method p2v_address].
  destruct (method_of_byte m) as [mm|] eqn:M; cbn [ok_or rbind].
  2:{ split; [discriminate|]. intros [[[-> _]|[-> _]] _]; discriminate. }
  assert (MM : (m = 0 /\ pm = OpretFirst) \/ (m = 1 /\ pm = TapretFirst) <-> mm = pm).
  { destruct m as [|[q|q|]]; cbn in M; try discriminate; injection M as <-;
      intuition (try discriminate; try congruence). }
  rewrite MM. clear MM M.
  assert (K : forall a, rbind (Ok a : result Pay2VoutError AddressPayload)
                (fun a => Ok {| p2v_method := mm; p2v_address := a |})
              = Ok {| p2v_method := pm; p2v_address := pa |} <-> mm = pm /\ a = pa).
  { intros a. cbn [rbind]. split; [intros H; apply Ok_inj in H; injection H; auto|intros [-> ->]; reflexivity]. }
  unfold P2PKH, P2SH, P2WPKH, P2WSH, P2TR.
  destruct (N.eqb_spec t 1) as [->|N1].
  { rewrite K. intuition (try discriminate; try congruence). }
  destruct (N.eqb_spec t 2) as [->|N2].
  { rewrite K. intuition (try discriminate; try congruence). }
  destruct (N.eqb_spec t 3) as [->|N3].
  { rewrite K. intuition (try discriminate; try congruence). }
  destruct (N.eqb_spec t 4) as [->|N4].
  { rewrite K. intuition (try discriminate; try congruence). }
  destruct (N.eqb_spec t 5) as [->|N5].
  - destruct (tapkey_ok C r) eqn:T.
    + rewrite K. intuition (try discriminate; try congruence).
    + cbn [rbind]. intuition (try discriminate; try congruence).
  - cbn [rbind]. intuition (try discriminate; try congruence).
Qed.

Lemma p2v_try_from_no_panic C l : p2v_try_from C l <> Panic.
Proof.
  unfold p2v_try_from. destruct (method_of_byte (nth 0 l 0)); cbn [ok_or rbind]; [|discriminate].
  repeat match goal with
  | |- context [if ?b then _ else _] => destruct b; cbn [rbind]; try discriminate
  end.
Qed.

(** ** C07: networks *)
Lemma chainnet_parse s n : chainnet_from_str s = Some n <->
  exists m, map ascii_lower s = chainnet_display m /\
            n = (if match m with LiquidMainnet => true | _ => false end then BitcoinMainnet else m).
Proof.
  unfold chainnet_from_str. generalize (map ascii_lower s) as x. intros x. split.
  - repeat match goal with
           | |- (if streqb ?a x then Some ?r else _) = _ -> _ =>
               let E := fresh in destruct (streqb a x) eqn:E;
               [apply streqb_eq in E; intros X; injection X as <-; subst x|clear E]
           end; try discriminate.
    1: exists BitcoinMainnet; split; reflexivity.
    1: exists BitcoinTestnet; split; reflexivity.
    1: exists BitcoinSignet; split; reflexivity.
    1: exists BitcoinRegtest; split; reflexivity.
    1: exists LiquidMainnet; split; reflexivity.
    1: exists LiquidTestnet; split; reflexivity.
  - intros (m & -> & ->). destruct m; vm_compute; reflexivity.
Qed.

Lemma chainnet_round_trip n : n <> LiquidMainnet -> chainnet_from_str (chainnet_display n) = Some n.
Proof. destruct n; intros H; try reflexivity. congruence. Qed.

Lemma chainnet_prod s n m : chainnet_from_str s = Some n -> map ascii_lower s = chainnet_display m ->
  is_prod n = is_prod m.
Proof.
  intros H E. apply chainnet_parse in H. destruct H as (k & E' & ->).
  rewrite E in E'. destruct m, k; try reflexivity; vm_compute in E'; discriminate.
Qed.

(** ** Pieces of the URI *)
Lemma i64_round_trip z : i64 z -> i64_parse (i64_print z) = Some z.
Proof.
  intros H. unfold i64 in H. unfold i64_print, i64_parse.
  destruct (Z.ltb_spec z 0) as [L|L].
  - rewrite is_char_refl. rewrite dec_value_print.
    destruct (dec_print (Z.to_N (- z))) eqn:E; [destruct (dec_print_nonempty _ E)|].
    replace (Z.to_N (- z) <=? 9223372036854775808) with true by (symmetry; apply N.leb_le; lia).
    f_equal. lia.
  - destruct (dec_print (Z.to_N z)) as [|c r] eqn:E; [destruct (dec_print_nonempty _ E)|].
    assert (D : is_digit c = true).
    { pose proof (dec_print_digits (Z.to_N z)) as F. rewrite E in F. inversion F; assumption. }
    replace (is_char c "-"%char) with false
      by (symmetry; apply is_char_false; intros ->; discriminate D).
    rewrite (is_digit_plus _ D). rewrite <- E, dec_value_print.
    replace (Z.to_N z <=? 9223372036854775807) with true by (symmetry; apply N.leb_le; lia).
    f_equal. lia.
Qed.

Definition all_ascii : list ascii := map ascii_of_nat (seq 0 256).
Lemma all_ascii_In c : In c all_ascii.
Proof.
  unfold all_ascii. apply in_map_iff. exists (nat_of_ascii c). split; [apply ascii_nat_embedding|].
  apply in_seq. pose proof (nat_ascii_bounded c). lia.
Qed.
Lemma ascii_cases (P : ascii -> bool) : forallb P all_ascii = true -> forall c, P c = true.
Proof. intros H c. exact (in_letters P all_ascii c H (all_ascii_In c)). Qed.

Definition unsafe (c : ascii) : bool := existsb (is_char c) (lit "%\^`{|}").
Lemma query_safe_b c : query_safe c <-> unsafe c = false.
Proof.
  unfold query_safe, unsafe. split; intros H.
  - apply not_true_is_false. intros E. apply existsb_exists in E. destruct E as (x & X & Y).
    apply is_char_eq in Y. subst x. exact (H X).
  - intros X. assert (E : existsb (is_char c) (lit "%\^`{|}") = true).
    { apply existsb_exists. exists c. split; [exact X|apply is_char_refl]. } congruence.
Qed.

(** One escaped or plain character. *)
Lemma encode_char_cases c : unsafe c = false ->
  (encode_char c = [c] /\ is_query_char c = true /\ is_char c "%"%char = false /\
   is_char c "&"%char = false /\ is_char c "="%char = false /\ is_char c "#"%char = false) \/
  (exists h l a b, encode_char c = ["%"%char; h; l] /\ hex_value h = Some a /\ hex_value l = Some b /\
     ascii_of_N (16 * a + b) = c /\ ~ In "&"%char [h; l] /\ ~ In "="%char [h; l] /\ ~ In "#"%char [h; l]).
Proof.
  pose (P := fun c => unsafe c ||
    match encode_char c with
    | [d] => is_char d c && is_query_char c && negb (is_char c "%"%char) && negb (is_char c "&"%char)
             && negb (is_char c "="%char) && negb (is_char c "#"%char)
    | [p; h; l] => match hex_value h, hex_value l with
                   | Some a, Some b => is_char p "%"%char && is_char (ascii_of_N (16 * a + b)) c
                       && forallb (fun x => negb (is_char x "&"%char) && negb (is_char x "="%char)
                                            && negb (is_char x "#"%char)) [h; l]
                   | _, _ => false
                   end
    | _ => false
    end).
  assert (HP : forallb P all_ascii = true) by (vm_compute; reflexivity).
  pose proof (ascii_cases P HP c) as H. clear HP. unfold P in H. clear P.
  intros U. rewrite U in H. cbn [orb] in H.
  assert (NI : forall x l, forallb (fun x => negb (is_char x "&"%char) && negb (is_char x "="%char)
                                            && negb (is_char x "#"%char)) l = true ->
               In x (lit "&=#") -> ~ In x l).
  { intros x l F X Y. rewrite forallb_forall in F. specialize (F x Y).
    cbn in X. intuition subst; cbn in F; discriminate. }
  destruct (encode_char c) as [|p [|h [|l [|]]]] eqn:E; try discriminate.
  - left. repeat (apply andb_true_iff in H; destruct H as [H ?]).
    apply is_char_eq in H. subst p.
    repeat match goal with X : negb _ = true |- _ => apply negb_true_iff in X end. auto 10.
  - right. destruct (hex_value h) as [a|] eqn:A; [|discriminate].
    destruct (hex_value l) as [b|] eqn:B; [|discriminate].
    apply andb_true_iff in H. destruct H as [H F]. apply andb_true_iff in H. destruct H as [H1 H2].
    apply is_char_eq in H1. apply is_char_eq in H2. subst p.
    exists h, l, a, b. repeat split; auto; apply NI; auto; cbn; tauto.
Qed.

Lemma percent_encode_spec s : Forall query_safe s ->
  pct_decode (percent_encode s) = s /\
  (forall ok t, (forall c, is_query_char c = true -> ok c = true) ->
     uri_chars_ok ok (percent_encode s ++ t) = uri_chars_ok ok t) /\
  ~ In "&"%char (percent_encode s) /\ ~ In "="%char (percent_encode s) /\ ~ In "#"%char (percent_encode s).
Proof.
  induction 1 as [|c s Hc _ (ID & IU & I1 & I2 & I3)]; [repeat split; intros; auto|].
  apply query_safe_b in Hc. change (percent_encode (c :: s)) with (encode_char c ++ percent_encode s).
  destruct (encode_char_cases c Hc) as [(-> & Q & P & A & Eq & Hs)|(h & l & a & b & -> & A & B & D & N1 & N2 & N3)].
  - cbn [app]. split; [cbn [pct_decode]; rewrite P, ID; reflexivity|]. split.
    + intros ok t K. cbn [app uri_chars_ok]. rewrite P, (K c Q), IU by exact K. reflexivity.
    + apply is_char_false in A. apply is_char_false in Eq. apply is_char_false in Hs. cbn. intuition.
  - split.
    + cbn [app pct_decode]. rewrite is_char_refl, A, B, D, ID. reflexivity.
    + split.
      * intros ok t K. cbn [app uri_chars_ok]. rewrite is_char_refl, A, B. apply IU. exact K.
      * change (["%"%char; h; l] ++ percent_encode s) with (["%"%char] ++ [h; l] ++ percent_encode s).
        repeat split; intros X; apply in_app_iff in X; destruct X as [X|X];
          try (cbn in X; intuition discriminate); apply in_app_iff in X; intuition.
Qed.

(** Index maps *)
Lemma imap_insert_new k v m : ~ In k (map fst m) -> imap_insert k v m = m ++ [(k, v)].
Proof.
  induction m as [|[k' v'] m IH]; intros H; [reflexivity|]. cbn [imap_insert].
  destruct (streqb k k') eqn:E.
  - apply streqb_eq in E. subst k'. destruct H. left. reflexivity.
  - rewrite IH by (intros X; apply H; right; exact X). reflexivity.
Qed.
Lemma imap_extend_new l : forall m, NoDup (map fst (m ++ l)) -> imap_extend m l = m ++ l.
Proof.
  induction l as [|[k v] l IH]; intros m H; [rewrite app_nil_r; reflexivity|].
  unfold imap_extend. cbn [fold_left fst snd].
  assert (Hk : ~ In k (map fst m)).
  { rewrite map_app in H. cbn [map fst] in H. apply NoDup_remove_2 in H.
    intros X. apply H. apply in_app_iff. auto. }
  rewrite imap_insert_new by exact Hk.
  change ((m ++ [(k, v)]) ) with (m ++ [(k, v)]).
  assert (E : m ++ (k, v) :: l = (m ++ [(k, v)]) ++ l) by (rewrite <- app_assoc; reflexivity).
  rewrite E in *. apply IH. exact H.
Qed.
Lemma imap_remove_hit k v a b : ~ In k (map fst a) ->
  imap_remove k (a ++ (k, v) :: b) = (Some v, a ++ b).
Proof.
  induction a as [|[k' v'] a IH]; intros H; cbn [app imap_remove].
  - rewrite streqb_refl. reflexivity.
  - destruct (streqb k k') eqn:E.
    + apply streqb_eq in E. subst k'. destruct H. left. reflexivity.
    + rewrite IH by (intros X; apply H; right; exact X). reflexivity.
Qed.
Lemma imap_remove_miss k m : ~ In k (map fst m) -> imap_remove k m = (None, m).
Proof.
  induction m as [|[k' v'] m IH]; intros H; cbn [imap_remove]; [reflexivity|].
  destruct (streqb k k') eqn:E.
  - apply streqb_eq in E. subst k'. destruct H. left. reflexivity.
  - rewrite IH by (intros X; apply H; right; exact X). reflexivity.
Qed.

(** Query text *)
Lemma query_map_round_trip C m : m <> [] -> NoDup (map fst m) ->
  Forall (fun p => query_text_ok C (fst p) /\ query_text_ok C (snd p)) m ->
  map_query_params C (Some (query_text m)) = Ok m /\
  uri_chars_ok is_query_char (query_text m) = true /\ ~ In "#"%char (query_text m).
Proof.
  intros Hne Hnd Hf.
  assert (PAIR : Forall (fun p => ~ In "&"%char (percent_encode (fst p) ++ "="%char :: percent_encode (snd p))) m).
  { eapply Forall_impl; [|exact Hf]. intros [k v] [[Hk _] [Hv _]]. cbn [fst snd] in *.
    destruct (percent_encode_spec k Hk) as (_ & _ & K & _).
    destruct (percent_encode_spec v Hv) as (_ & _ & V & _).
    intros X. apply in_app_iff in X. destruct X as [X|[X|X]]; [auto|discriminate|auto]. }
  split; [|split].
  - unfold map_query_params, query_text. change (lit "&") with ["&"%char].
    rewrite split_all_join.
    2:{ destruct m; [congruence|discriminate]. }
    2:{ apply Forall_map. exact PAIR. }
    assert (G : forall m0 m1, NoDup (map fst (m0 ++ m1)) ->
      Forall (fun p => query_text_ok C (fst p) /\ query_text_ok C (snd p)) m1 ->
      rfold (fun m p =>
               match split_once "="%char p with
               | Some (k, v) =>
                   let! k := percent_decode C k in
                   let! v := percent_decode C v in
                   Ok (imap_insert k v m)
               | None => Err EInvalidQueryParam
               end) m0 (map (fun p => percent_encode (fst p) ++ "="%char :: percent_encode (snd p)) m1)
      = Ok (m0 ++ m1)).
    { intros m0 m1. revert m0. induction m1 as [|[k v] m1 IH]; intros m0 N F.
      - cbn. rewrite app_nil_r. reflexivity.
      - inversion F as [|? ? [[Hk Uk] [Hv Uv]] F']; subst. cbn [fst snd] in *.
        destruct (percent_encode_spec k Hk) as (Dk & _ & _ & Ek & _).
        destruct (percent_encode_spec v Hv) as (Dv & _ & _ & _ & _).
        cbn [map rfold fst snd]. rewrite split_once_app by exact Ek.
        unfold percent_decode. rewrite Dk, Dv, Uk, Uv. cbn [rbind].
        rewrite imap_insert_new.
        2:{ rewrite map_app in N. cbn [map fst] in N. apply NoDup_remove_2 in N.
            intros X. apply N. apply in_app_iff. auto. }
        rewrite IH.
        + rewrite <- app_assoc. reflexivity.
        + rewrite <- app_assoc. exact N.
        + exact F'. }
    apply (G [] m Hnd Hf).
  - clear Hne Hnd PAIR. unfold query_text. induction Hf as [|[k v] m [[Hk _] [Hv _]] F IH]; [reflexivity|].
    cbn [fst snd] in *.
    destruct (percent_encode_spec k Hk) as (_ & Uk & _).
    destruct (percent_encode_spec v Hv) as (_ & Uv & _).
    cbn [map fst snd]. destruct m as [|p m].
    + cbn [map join]. rewrite Uk by auto.
      change ("="%char :: percent_encode v) with (["="%char] ++ percent_encode v).
      cbn [app uri_chars_ok]. change (is_char "=" "%") with false. change (is_query_char "=") with true.
      cbn [andb]. rewrite <- (app_nil_r (percent_encode v)). rewrite Uv by auto. reflexivity.
    + cbn [map] in *. cbn [join]. rewrite <- app_assoc. rewrite Uk by auto.
      cbn [app uri_chars_ok]. change (is_char "=" "%") with false. change (is_query_char "=") with true.
      cbn [andb]. rewrite Uv by auto. cbn [lit list_ascii_of_string app uri_chars_ok].
      change (is_char "&" "%") with false. change (is_query_char "&") with true. cbn [andb]. exact IH.
  - clear Hne Hnd PAIR. unfold query_text. induction Hf as [|[k v] m [[Hk _] [Hv _]] F IH]; [auto|].
    cbn [fst snd] in *.
    destruct (percent_encode_spec k Hk) as (_ & _ & _ & _ & Nk).
    destruct (percent_encode_spec v Hv) as (_ & _ & _ & _ & Nv).
    cbn [map fst snd]. destruct m as [|p m].
    + cbn [map join]. intros X. apply in_app_iff in X. destruct X as [X|[X|X]]; [auto|discriminate|auto].
    + cbn [map] in *. cbn [join]. intros X. apply in_app_iff in X. destruct X as [X|X].
      * apply in_app_iff in X. destruct X as [X|[X|X]]; [auto|discriminate|auto].
      * apply in_app_iff in X. destruct X as [X|X]; [cbn in X; intuition discriminate|auto].
Qed.

Lemma qok_app C a b : codecs_ok C -> query_text_ok C a -> query_text_ok C b -> query_text_ok C (a ++ b).
Proof.
  intros K [A1 A2] [B1 B2]. split; [apply Forall_app; auto|]. apply (ok_utf8_app C K); assumption.
Qed.
Lemma qok_plain C s : codecs_ok C ->
  Forall (fun c => negb (unsafe c) && (N_of_ascii c <? 128) = true) s -> query_text_ok C s.
Proof.
  intros K H. split.
  - eapply Forall_impl; [|exact H]. intros c X. apply andb_true_iff in X.
    apply query_safe_b. apply negb_true_iff. tauto.
  - apply (ok_utf8_ascii C K). eapply Forall_impl; [|exact H]. intros c X. apply andb_true_iff in X.
    destruct X as [_ X]. apply N.ltb_lt in X. exact X.
Qed.
Lemma qok_lit C s : codecs_ok C ->
  forallb (fun c => negb (unsafe c) && (N_of_ascii c <? 128)) s = true -> query_text_ok C s.
Proof. intros K H. apply qok_plain; [exact K|]. apply Forall_forall. apply forallb_forall. exact H. Qed.

Lemma digit_plain c : is_digit c = true -> negb (unsafe c) && (N_of_ascii c <? 128) = true.
Proof.
  intros D. pose (P := fun c => negb (is_digit c) || (negb (unsafe c) && (N_of_ascii c <? 128))).
  assert (HP : forallb P all_ascii = true) by (vm_compute; reflexivity).
  pose proof (ascii_cases P HP c) as H. unfold P in H. rewrite D in H. exact H.
Qed.
Lemma qok_i64 C z : codecs_ok C -> query_text_ok C (i64_print z).
Proof.
  intros K. apply qok_plain; [exact K|]. unfold i64_print.
  assert (D : forall n, Forall (fun c => negb (unsafe c) && (N_of_ascii c <? 128) = true) (dec_print n)).
  { intros n. eapply Forall_impl; [|apply dec_print_digits]. apply digit_plain. }
  destruct (z <? 0)%Z; [constructor; [reflexivity|apply D]|apply D].
Qed.

Lemma transport_text C t : codecs_ok C -> endpoint_ok C t ->
  query_text_ok C (transport_display t) /\ ~ In ","%char (transport_display t) /\
  transport_from_str (transport_display t) = Ok t.
Proof.
  intros K H. split; [|split].
  - destruct t as [[] h|[] h|[] h| |]; cbn [endpoint_ok] in H; try contradiction;
      cbn [transport_display];
      repeat (apply qok_app; [exact K|apply qok_lit; [exact K|reflexivity]|]);
      try tauto; apply qok_lit; auto.
  - assert (G : forall a h, ~ In ","%char a -> ~ In ","%char h -> ~ In ","%char (a ++ h)).
    { intros a h A B X. apply in_app_iff in X. tauto. }
    destruct t as [[] h|[] h|[] h| |]; cbn [endpoint_ok] in H; try contradiction;
      cbn [transport_display];
      repeat (apply G; [cbn; intuition discriminate|]); try tauto; cbn; intuition discriminate.
  - apply transport_round_trip. destruct t; cbn in H; tauto.
Qed.

Lemma endpoints_round_trip C ts : codecs_ok C -> ts <> [] -> Forall (endpoint_ok C) ts ->
  query_text_ok C (join [TRANSPORT_SEP] (map transport_display ts)) /\
  rfold (fun l t => let! t := rmap_err (fun _ => EInvalidQueryParam) (transport_from_str t) in Ok (l ++ [t]))
    [] (split_all TRANSPORT_SEP (join [TRANSPORT_SEP] (map transport_display ts))) = Ok ts.
Proof.
  intros K Hne Hf. split.
  - clear Hne. induction Hf as [|t ts H F IH].
    + apply qok_lit; [exact K|reflexivity].
    + cbn [map]. destruct (transport_text C t K H) as (Q & _ & _). destruct ts as [|u ts].
      * exact Q.
      * cbn [map join] in *. apply qok_app; [exact K|exact Q|]. apply qok_app; [exact K| |exact IH].
        apply qok_lit; [exact K|reflexivity].
  - rewrite split_all_join.
    2:{ destruct ts; [congruence|discriminate]. }
    2:{ apply Forall_map. eapply Forall_impl; [|exact Hf]. intros t H. apply (transport_text C t K H). }
    enough (G : forall acc, rfold (fun l t => let! t := rmap_err (fun _ => EInvalidQueryParam) (transport_from_str t) in
        Ok (l ++ [t])) acc (map transport_display ts) = Ok (acc ++ ts)) by apply (G []).
    clear Hne.
    induction Hf as [|t ts H F IH]; intros acc; [cbn; rewrite app_nil_r; reflexivity|].
    cbn [map rfold]. destruct (transport_text C t K H) as (_ & _ & ->). cbn [rmap_err rbind].
    rewrite IH. rewrite <- app_assoc. reflexivity.
Qed.

(** Characters of a path segment *)
Definition segc (c : ascii) : bool := is_pchar c && negb (is_char c "+"%char).
Definition seg_ok (s : str) : Prop := Forall (fun c => segc c = true) s.

Lemma segc_not c : segc c = true ->
  c <> "/"%char /\ c <> "#"%char /\ c <> "?"%char /\ c <> "%"%char /\ c <> "+"%char /\ is_path_char c = true.
Proof.
  intros H.
  pose (P := fun c => negb (segc c) || (negb (is_char c "/") && negb (is_char c "#") && negb (is_char c "?")
                                        && negb (is_char c "%") && negb (is_char c "+") && is_path_char c)).
  assert (HP : forallb P all_ascii = true) by (vm_compute; reflexivity).
  pose proof (ascii_cases P HP c) as X. unfold P in X. rewrite H in X. cbn [negb orb] in X.
  repeat (apply andb_true_iff in X; destruct X as [X ?]).
  repeat match goal with X : negb _ = true |- _ => apply negb_true_iff in X; apply is_char_false in X end.
  auto 10.
Qed.
Lemma seg_no s : seg_ok s -> ~ In "/"%char s /\ ~ In "#"%char s /\ ~ In "?"%char s /\ ~ In "+"%char s.
Proof.
  unfold seg_ok. rewrite Forall_forall. intros H.
  repeat split; intros X; specialize (segc_not _ (H _ X)); tauto.
Qed.
Lemma seg_app a b : seg_ok a -> seg_ok b -> seg_ok (a ++ b).
Proof. intros. apply Forall_app. auto. Qed.
Lemma seg_uri s t : seg_ok s -> uri_chars_ok is_path_char (s ++ t) = uri_chars_ok is_path_char t.
Proof.
  induction 1 as [|c s H _ IH]; [reflexivity|]. cbn [app uri_chars_ok].
  destruct (segc_not c H) as (_ & _ & _ & NP & _ & ->). apply is_char_false in NP. rewrite NP. exact IH.
Qed.
Lemma seg_id s : id_text s -> seg_ok s.
Proof.
  intros H. eapply Forall_impl; [|exact H]. intros c X.
  exact (in_letters segc id_letters c eq_refl X).
Qed.
Lemma seg_lit s : forallb segc s = true -> seg_ok s.
Proof. intros H. apply Forall_forall. apply forallb_forall. exact H. Qed.
Lemma digit_seg c : is_digit c = true -> segc c = true.
Proof.
  intros D. pose (P := fun c => negb (is_digit c) || segc c).
  assert (HP : forallb P all_ascii = true) by (vm_compute; reflexivity).
  pose proof (ascii_cases P HP c) as H. unfold P in H. rewrite D in H. exact H.
Qed.

Lemma amount_display_letters a : u64 a -> Forall (fun c => In c amount_letters) (amount_display a) /\
  amount_display a <> [].
Proof.
  intros H. pose proof (amount_round_trip a H) as R. split.
  - apply (amount_from_str_sound _ _ R).
  - intros E. rewrite E in R. assert (X : amount_from_str [] = Ok 0) by (vm_compute; reflexivity).
    rewrite X in R. apply Ok_inj in R. subst a. vm_compute in E. discriminate.
Qed.

Lemma state_text C st : codecs_ok C -> state_ok st ->
  seg_ok (state_display C st) /\ state_from_str C (state_display C st) = Some st /\
  (state_display C st = [] <-> st = ISVoid).
Proof.
  intros K H. destruct st as [|a|a|i]; cbn [state_ok state_display] in *.
  - repeat split; auto. constructor.
  - destruct (amount_display_letters a H) as [L N]. split; [|split].
    + eapply Forall_impl; [|exact L]. intros c X. exact (in_letters segc amount_letters c eq_refl X).
    + unfold state_from_str. rewrite (amount_round_trip a H). destruct (amount_display a); [congruence|reflexivity].
    + split; [intros; congruence|discriminate].
  - destruct H as [Hi Hf].
    assert (D : forall n, seg_ok (dec_print n)).
    { intros n. eapply Forall_impl; [|apply dec_print_digits]. apply digit_seg. }
    assert (N : allocation_display a <> []).
    { unfold allocation_display. destruct (dec_print (al_fraction a)); discriminate. }
    split; [|split].
    + unfold allocation_display. apply seg_app; [apply D|]. constructor; [reflexivity|apply D].
    + unfold state_from_str. rewrite (allocation_round_trip a Hi Hf).
      destruct (amount_from_str_rejects (allocation_display a)) as [e E].
      { left. unfold allocation_display. apply Exists_exists. exists "@"%char. split.
        - apply in_app_iff. right. left. reflexivity.
        - vm_compute. intuition discriminate. }
      rewrite E. destruct (allocation_display a); [congruence|reflexivity].
    + split; [intros; congruence|discriminate].
  - pose proof (ok_attach_text C K i) as T. pose proof (ok_attach_not_amount C K i) as NA.
    assert (N : attach_print C i <> []) by (intros E; rewrite E in NA; inversion NA).
    split; [apply seg_id; exact T|]. split.
    + unfold state_from_str. destruct (amount_from_str_rejects (attach_print C i) (or_introl NA)) as [e ->].
      assert (A : allocation_from_str (attach_print C i) = Err WrongFormat).
      { unfold allocation_from_str.
        replace (split_once "@"%char (attach_print C i)) with (@None (str * str)); [reflexivity|].
        symmetry. apply split_once_None. apply id_text_no; [exact T|]. notin. }
      rewrite A, (ok_attach C K). destruct (attach_print C i); [congruence|reflexivity].
    + split; [intros; congruence|discriminate].
Qed.

Lemma beneficiary_text C alt b : codecs_ok C -> chain_network b <> LiquidMainnet ->
  beneficiary_ok C (xcn_into_inner b) ->
  seg_ok ((if alt : bool then nodash else fun s => s) (beneficiary_display C b)) /\
  beneficiary_from_str C ((if alt then nodash else fun s => s) (beneficiary_display C b)) = Ok b.
Proof.
  intros K HN HB.
  assert (CODE : exists code, chainnet_display (chain_network b) = code /\ seg_ok code /\ undashed code = code /\
            ~ In ":"%char code /\ chainnet_from_str code = Some (chain_network b)).
  { eexists. split; [reflexivity|]. split; [|split; [|split]].
    - apply seg_lit. destruct (chain_network b); reflexivity.
    - destruct (chain_network b); reflexivity.
    - destruct (chain_network b); cbn; intuition discriminate.
    - apply chainnet_round_trip. exact HN. }
  destruct CODE as (code & Ec & Sc & Uc & Nc & Rc).
  assert (W : b = xcn_with (chain_network b) (xcn_into_inner b)) by (destruct b; reflexivity).
  assert (BODY : exists body, beneficiary_display C b = code ++ ":"%char :: body /\
     forall alt, id_text ((if alt : bool then undashed else fun s => s) body) /\
      match seal_parse C ((if alt then undashed else fun s => s) body) with
      | Some seal => xcn_into_inner b = BlindedSeal seal
      | None => exists data p, baid_parse C ((if alt then undashed else fun s => s) body) = Some data /\
                   p2v_try_from C data = Ok p /\ xcn_into_inner b = WitnessVout p
      end).
  { unfold beneficiary_display. rewrite Ec. destruct (xcn_into_inner b) as [s|p]; eexists; (split; [reflexivity|]).
    - intros [].
      + split; [apply id_text_undashed, (ok_seal_text C K)|]. rewrite (ok_seal_undashed C K). reflexivity.
      + split; [apply (ok_seal_text C K)|]. rewrite (ok_seal C K). reflexivity.
    - cbn [beneficiary_ok] in HB. destruct (p2v_payload_bytes C p HB) as (l & El & Bl). rewrite El.
      pose proof (p2v_round_trip C p l HB (El _)) as RT. intros [].
      + split; [apply id_text_undashed, (ok_baid_text C K); exact Bl|].
        rewrite (ok_baid_not_seal_undashed C K) by exact Bl. exists l, p.
        rewrite (ok_baid_undashed C K) by exact Bl. auto.
      + split; [apply (ok_baid_text C K); exact Bl|].
        rewrite (ok_baid_not_seal C K) by exact Bl. exists l, p.
        rewrite (ok_baid C K) by exact Bl. auto. }
  destruct BODY as (body & Eb & HBody). specialize (HBody alt). destruct HBody as [TI MP].
  assert (TXT : (if alt then nodash else fun s => s) (beneficiary_display C b)
                = code ++ ":"%char :: (if alt then undashed else fun s => s) body).
  { rewrite Eb. destruct alt; [|reflexivity]. rewrite nodash_undashed, undashed_app, Uc. reflexivity. }
  rewrite TXT. split.
  - apply seg_app; [exact Sc|]. constructor; [reflexivity|]. apply seg_id. exact TI.
  - unfold beneficiary_from_str. rewrite split_once_app by exact Nc. rewrite Rc. cbn [ok_or rbind].
    destruct (seal_parse C ((if alt then undashed else fun s => s) body)) as [s|].
    + rewrite <- MP, <- W. reflexivity.
    + destruct MP as (data & p & -> & -> & E). cbn [rmap_err rbind]. rewrite <- E, <- W. reflexivity.
Qed.

Lemma query_params_list C i : codecs_ok C -> printable C i ->
  let E := match expiry i with Some e => [(EXPIRY, i64_print e)] | None => [] end in
  let T := if is_sole_unspecified (transports i) then []
           else [(ENDPOINTS, join [TRANSPORT_SEP] (map transport_display (transports i)))] in
  query_params i = E ++ T ++ unknown_query i /\ NoDup (map fst (query_params i)) /\
  Forall (fun p => query_text_ok C (fst p) /\ query_text_ok C (snd p)) (query_params i) /\
  (has_params i = false -> query_params i = []) /\ (has_params i = true -> query_params i <> []).
Proof.
  intros K P E T.
  destruct (pr_query_reserved C i P) as [R1 R2].
  assert (ND : NoDup (map fst (E ++ T ++ unknown_query i))).
  { unfold E, T. destruct (expiry i); destruct (is_sole_unspecified (transports i)); cbn [app map fst];
      repeat constructor; try exact (pr_query_keys C i P); try exact R1; try exact R2.
    cbn. intros [X|X]; [discriminate|]. exact (R1 X). }
  assert (QP : query_params i = E ++ T ++ unknown_query i).
  { unfold query_params.
    assert (M : (if is_sole_unspecified (transports i)
                 then match expiry i with Some e => imap_insert EXPIRY (i64_print e) [] | None => [] end
                 else imap_insert ENDPOINTS (join [TRANSPORT_SEP] (map transport_display (transports i)))
                        match expiry i with Some e => imap_insert EXPIRY (i64_print e) [] | None => [] end)
                = E ++ T).
    { unfold E, T. destruct (expiry i); destruct (is_sole_unspecified (transports i)); reflexivity. }
    cbv zeta. rewrite M. rewrite imap_extend_new; rewrite <- app_assoc; [reflexivity|exact ND]. }
  split; [exact QP|]. rewrite QP. split; [exact ND|]. split; [|split].
  - apply Forall_app. split; [|apply Forall_app; split; [|exact (pr_query C i P)]].
    + unfold E. destruct (expiry i) as [e|]; [|constructor]. constructor; [|constructor]. cbn [fst snd].
      split; [apply qok_lit; [exact K|reflexivity]|apply qok_i64; exact K].
    + unfold T. destruct (is_sole_unspecified (transports i)) eqn:S; [constructor|].
      constructor; [|constructor]. cbn [fst snd]. split; [apply qok_lit; [exact K|reflexivity]|].
      destruct (pr_transports C i P) as [TU|[TN TF]].
      * rewrite TU in S. discriminate.
      * apply (endpoints_round_trip C _ K TN TF).
  - unfold has_params, E, T. destruct (expiry i); [discriminate|].
    destruct (is_sole_unspecified (transports i)); [|discriminate].
    destruct (unknown_query i); [reflexivity|discriminate].
  - unfold has_params, E, T. destruct (expiry i); [discriminate|].
    destruct (is_sole_unspecified (transports i)); [|discriminate].
    destruct (unknown_query i); [discriminate|discriminate].
Qed.

Lemma invoice_round_trip C alt i : codecs_ok C -> printable C i ->
  invoice_from_str C (invoice_display C alt i) = Ok i.
Proof.
  intros K P.
  destruct (query_params_list C i K P) as (QP & QN & QF & QE & QX).
  destruct (state_text C (owned_state i) K (pr_state C i P)) as (SS & SR & SV).
  destruct (beneficiary_text C alt _ K (pr_network C i P) (pr_beneficiary C i P)) as (BS & BR).
  set (bt := (if alt then nodash else fun s => s) (beneficiary_display C (beneficiary i))) in *.
  set (st := state_display C (owned_state i)) in *.
  (* the contract segment *)
  assert (CT : exists ct, seg_ok ct /\ ct <> [] /\
    (match contract i with
     | Some c => (if alt then nodash else fun s => s) (lit "rgb:" ++ cid_body C c) ++ lit "/"
     | None => lit "rgb:" ++ OMITTED ++ lit "/"
     end) = lit "rgb:" ++ ct ++ lit "/" /\
    match cid_parse C ct with
    | Some c => Ok (Some c)
    | None => if streqb ct OMITTED then Ok None else Err EInvalidContractId
    end = Ok (contract i)).
  { destruct (contract i) as [c|].
    - exists ((if alt then undashed else fun s => s) (cid_body C c)).
      assert (PC : cid_parse C ((if alt then undashed else fun s => s) (cid_body C c)) = Some c).
      { destruct alt; [apply (ok_cid_undashed C K)|apply (ok_cid C K)]. }
      repeat split.
      + apply seg_id. destruct alt; [apply id_text_undashed|]; apply (ok_cid_text C K).
      + intros E. rewrite E, (ok_cid_nonempty C K) in PC. discriminate.
      + destruct alt; [|reflexivity]. rewrite nodash_undashed, undashed_app. rewrite <- app_assoc. reflexivity.
      + rewrite PC. reflexivity.
    - exists OMITTED. repeat split; [apply seg_lit; reflexivity|discriminate|].
      change OMITTED with (lit "~"). rewrite (ok_cid_omitted C K). reflexivity. }
  destruct CT as (ct & CS & CN & CE & CR).
  assert (IT : exists it, seg_ok it /\
    (match iface i with Some n => n ++ lit "/" | None => OMITTED ++ lit "/" end) = it ++ lit "/" /\
    (if typename_ok C it then Ok (Some it)
     else if streqb it OMITTED then Ok None else Err EInvalidIface) = Ok (iface i)).
  { destruct (iface i) as [n|] eqn:EI.
    - exists n. pose proof (pr_iface C i P n EI) as TN. repeat split.
      + apply seg_id. apply (ok_typename_text C K). exact TN.
      + rewrite TN. reflexivity.
    - exists OMITTED. repeat split; [apply seg_lit; reflexivity|].
      change OMITTED with (lit "~"). rewrite (ok_typename_omitted C K). reflexivity. }
  destruct IT as (it & IS & IE & IR).
  (* the last segment *)
  assert (AT : exists at_ : str, ~ In "/"%char at_ /\ ~ In "#"%char at_ /\ ~ In "?"%char at_ /\
    uri_chars_ok is_path_char at_ = true /\
    (match st with [] => [] | _ => st ++ lit "+" end) ++ bt = at_ /\
    (match split_once "+"%char at_ with
     | Some (a, b) => match state_from_str C a with Some s => Ok (b, s) | None => Err EData end
     | None => Ok (at_, ISVoid)
     end : result InvoiceParseError (str * InvoiceState)) = Ok (bt, owned_state i)).
  { destruct (seg_no _ SS) as (S1 & S2 & S3 & S4). destruct (seg_no _ BS) as (B1 & B2 & B3 & B4).
    destruct st as [|c r] eqn:ES.
    - exists bt. repeat split; auto.
      + rewrite <- (app_nil_r bt). rewrite seg_uri by exact BS. reflexivity.
      + replace (split_once "+"%char bt) with (@None (str * str)); [|symmetry; apply split_once_None; exact B4].
        rewrite (proj1 SV eq_refl). reflexivity.
    - exists ((c :: r) ++ "+"%char :: bt).
      assert (G : forall x, x <> "+"%char -> ~ In x (c :: r) -> ~ In x bt -> ~ In x ((c :: r) ++ "+"%char :: bt)).
      { intros x N X Y Z. apply in_app_iff in Z. destruct Z as [Z|[Z|Z]]; [auto|congruence|auto]. }
      repeat split; try (apply G; auto; discriminate).
      + rewrite seg_uri by exact SS. cbn [uri_chars_ok]. change (is_char "+" "%") with false.
        change (is_path_char "+") with true. cbn [andb].
        rewrite <- (app_nil_r bt). rewrite seg_uri by exact BS. reflexivity.
      + rewrite <- app_assoc. reflexivity.
      + rewrite split_once_app by exact S4. rewrite SR. reflexivity. }
  destruct AT as (at_ & A1 & A2 & A3 & AU & AE & AR).
  set (path := ct ++ "/"%char :: it ++ "/"%char :: at_).
  set (hier := lit "rgb:" ++ path).
  assert (DISP : invoice_display C alt i = hier ++ (if has_params i then "?"%char :: query_text (query_params i) else [])).
  { transitivity ((lit "rgb:" ++ ct ++ lit "/") ++ (it ++ lit "/") ++ [] ++ [] ++
                  (match st with [] => [] | _ => st ++ lit "+" end) ++ bt ++
                  (if has_params i then lit "?" else []) ++ query_text (query_params i)).
    { unfold invoice_display. cbv zeta. rewrite (pr_operation C i P), (pr_assignment C i P).
      apply (f_equal2 (@app ascii)); [rewrite <- CE; destruct (contract i); [destruct alt|]; reflexivity|].
      apply (f_equal2 (@app ascii)); [rewrite <- IE; reflexivity|].
      do 2 (apply (f_equal2 (@app ascii)); [reflexivity|]).
      apply (f_equal2 (@app ascii)); [reflexivity|].
      apply (f_equal2 (@app ascii)); [unfold bt; destruct alt; reflexivity|]. reflexivity. }
    unfold hier, path. rewrite <- AE. rewrite <- !app_assoc. cbn [app lit list_ascii_of_string].
    rewrite <- !app_assoc. cbn [app].
    destruct (has_params i) eqn:HP.
    - rewrite <- app_assoc. reflexivity.
    - rewrite (QE eq_refl), <- app_assoc. reflexivity. }
  destruct (seg_no _ CS) as (C1 & C2 & C3 & C4). destruct (seg_no _ IS) as (I1 & I2 & I3 & I4).
  assert (PN : forall x, x <> "/"%char -> ~ In x ct -> ~ In x it -> ~ In x at_ -> ~ In x path).
  { intros x N X1 X2 X3 Z. unfold path in Z. apply in_app_iff in Z. destruct Z as [Z|[Z|Z]]; [auto|congruence|].
    apply in_app_iff in Z. destruct Z as [Z|[Z|Z]]; [auto|congruence|auto]. }
  assert (HNN : ~ In "?"%char hier /\ ~ In "#"%char hier).
  { unfold hier. split; intros X; apply in_app_iff in X; destruct X as [X|X];
      try (cbn in X; intuition discriminate); revert X; apply PN; auto; discriminate. }
  assert (HU : uri_chars_ok is_path_char hier = true).
  { unfold hier, path. rewrite (seg_uri (lit "rgb:")) by (apply seg_lit; reflexivity).
    rewrite seg_uri by exact CS. cbn [uri_chars_ok]. change (is_char "/" "%") with false.
    change (is_path_char "/") with true. cbn [andb]. rewrite seg_uri by exact IS. cbn [uri_chars_ok].
    change (is_char "/" "%") with false. change (is_path_char "/") with true. cbn [andb]. exact AU. }
  (* URI level *)
  assert (URI : exists q, uri_parse (invoice_display C alt i) =
      Ok {| uri_scheme := Some (lit "rgb"); uri_authority := false; uri_path := path; uri_query := q |} /\
      map_query_params C q = Ok (query_params i)).
  { exists (if has_params i then Some (query_text (query_params i)) else None). rewrite DISP.
    assert (FIN : forall q, match q with Some q => uri_chars_ok is_query_char q | None => true end = true ->
      (if negb (true && match q with Some q => uri_chars_ok is_query_char q | None => true end && uri_chars_ok is_path_char hier)
       then Err EUri
       else match split_once ":"%char hier with
            | Some (sch, rest) =>
                if scheme_ok sch then
                  Ok {| uri_scheme := Some sch;
                        uri_authority := match strip_prefix (lit "//") rest with Some _ => true | None => false end;
                        uri_path := rest; uri_query := q |}
                else Err EUri
            | None => Ok {| uri_scheme := None; uri_authority := false; uri_path := hier; uri_query := q |}
            end) = Ok {| uri_scheme := Some (lit "rgb"); uri_authority := false; uri_path := path; uri_query := q |}).
    { intros q Hq. rewrite Hq, HU. cbn [andb negb]. unfold hier.
      change (lit "rgb:" ++ path) with (lit "rgb" ++ ":"%char :: path).
      rewrite split_once_app by (cbn; intuition discriminate).
      change (scheme_ok (lit "rgb")) with true. cbv iota.
      replace (strip_prefix (lit "//") path) with (@None str); [reflexivity|].
      symmetry. destruct (strip_prefix (lit "//") path) eqn:SP; [|reflexivity].
      apply strip_prefix_Some in SP. unfold path in SP. destruct ct as [|c r]; [congruence|].
      cbn in SP. injection SP as -> _. destruct C1. left. reflexivity. }
    destruct (has_params i) eqn:HP.
    - destruct (query_map_round_trip C _ (QX eq_refl) QN QF) as (QM & QU & QH).
      split; [|exact QM]. unfold uri_parse.
      replace (split_once "#"%char (hier ++ "?"%char :: query_text (query_params i))) with (@None (str * str)).
      2:{ symmetry. apply split_once_None. intros X. apply in_app_iff in X.
          destruct X as [X|[X|X]]; [tauto|discriminate|auto]. }
      rewrite split_once_app by tauto. apply (FIN (Some (query_text (query_params i)))). exact QU.
    - split; [|rewrite (QE eq_refl); reflexivity]. unfold uri_parse. rewrite app_nil_r.
      replace (split_once "#"%char hier) with (@None (str * str)) by (symmetry; apply split_once_None; tauto).
      replace (split_once "?"%char hier) with (@None (str * str)) by (symmetry; apply split_once_None; tauto).
      apply (FIN None). reflexivity. }
  destruct URI as (q & UP & UQ).
  unfold invoice_from_str. rewrite UP. cbn [rbind uri_scheme uri_path uri_authority uri_query ok_or].
  change (streqb (lit "rgb") (lit "rgb")) with true. cbn [negb].
  replace (match path with c :: _ => is_char c "/"%char | [] => false end) with false.
  2:{ unfold path. destruct ct as [|c r]; [congruence|]. cbn [app]. symmetry. apply is_char_false.
      intros ->. apply C1. left. reflexivity. }
  cbn [orb].
  replace (match path with [] => [] | _ => split_all "/"%char path end) with [ct; it; at_].
  2:{ unfold path. rewrite !split_all_app by assumption. rewrite split_all_noc by exact A1.
      destruct ct; reflexivity. }
  rewrite CR. cbn [rbind]. rewrite IR. cbn [rbind].
  replace (match contract i with Some _ => match iface i with Some _ => false | None => true end | None => false end)
    with false.
  2:{ pose proof (pr_contract C i P) as PCI. destruct (contract i); [|reflexivity].
      destruct (iface i); [reflexivity|]. destruct PCI; congruence. }
  rewrite AR. cbn [rbind fst snd]. rewrite BR. cbn [rbind]. rewrite UQ. cbn [rbind].
  rewrite QP.
  destruct (pr_query_reserved C i P) as [R1 R2].
  set (E := match expiry i with Some e => [(EXPIRY, i64_print e)] | None => [] end).
  assert (REM : imap_remove ENDPOINTS (E ++ (if is_sole_unspecified (transports i) then []
           else [(ENDPOINTS, join [TRANSPORT_SEP] (map transport_display (transports i)))]) ++ unknown_query i)
    = ((if is_sole_unspecified (transports i) then None
        else Some (join [TRANSPORT_SEP] (map transport_display (transports i)))), E ++ unknown_query i)).
  { assert (NE : ~ In ENDPOINTS (map fst E)).
    { unfold E. destruct (expiry i); cbn [map fst In]; [|tauto]. intros [X|[]]. vm_compute in X. discriminate. }
    destruct (is_sole_unspecified (transports i)).
    - apply imap_remove_miss. cbn [app]. rewrite map_app. intros X. apply in_app_iff in X.
      destruct X as [X|X]; [exact (NE X)|exact (R2 X)].
    - apply (imap_remove_hit ENDPOINTS _ E (unknown_query i) NE). }
  rewrite REM.
  assert (TR : match (if is_sole_unspecified (transports i) then None
                     else Some (join [TRANSPORT_SEP] (map transport_display (transports i)))) with
     | Some ep => rfold (fun l t => let! t := rmap_err (fun _ => EInvalidQueryParam) (transport_from_str t) in
                              Ok (l ++ [t])) [] (split_all TRANSPORT_SEP ep)
     | None => Ok [UnspecifiedMeans]
     end = Ok (transports i)).
  { destruct (pr_transports C i P) as [TU|[TN TF]].
    - rewrite TU. reflexivity.
    - destruct (is_sole_unspecified (transports i)) eqn:S.
      + destruct (transports i) as [|[| | | |] [|]]; try discriminate. reflexivity.
      + apply (endpoints_round_trip C _ K TN TF). }
  rewrite TR. cbn [rbind].
  assert (EX : imap_remove EXPIRY (E ++ unknown_query i) = (option_map i64_print (expiry i), unknown_query i)).
  { unfold E. destruct (expiry i) as [e|].
    - apply (imap_remove_hit EXPIRY _ [] (unknown_query i)). auto.
    - apply imap_remove_miss. exact R1. }
  rewrite EX.
  replace (match option_map i64_print (expiry i) with
           | Some e => let! t := ok_or EInvalidExpiration (i64_parse e) in Ok (Some t)
           | None => Ok None
           end) with (Ok (expiry i) : result InvoiceParseError (option Z)).
  2:{ pose proof (pr_expiry C i P) as PE. destruct (expiry i) as [e|]; [|reflexivity].
      cbn [option_map]. rewrite i64_round_trip by (apply PE; reflexivity). reflexivity. }
  cbn [rbind].
  pose proof (pr_operation C i P) as PO. pose proof (pr_assignment C i P) as PA.
  destruct i; cbn in *. subst. reflexivity.
Qed.

(** ** No panic while parsing *)
Lemma rfold_no_panic {E A B} (f : B -> A -> result E B) l : (forall b a, f b a <> Panic) ->
  forall b, rfold f b l <> Panic.
Proof.
  intros H. induction l as [|a l IH]; intros b; cbn [rfold]; [discriminate|].
  specialize (H b a). destruct (f b a); [apply IH|discriminate|congruence].
Qed.
Lemma rbind_no_panic {E A B} (r : result E A) (k : A -> result E B) :
  r <> Panic -> (forall a, k a <> Panic) -> rbind r k <> Panic.
Proof. destruct r; cbn; intros H K; [apply K|discriminate|congruence]. Qed.
Lemma ok_or_no_panic {E A} (e : E) (o : option A) : ok_or e o <> Panic.
Proof. destruct o; discriminate. Qed.

Lemma uri_parse_no_panic s : uri_parse s <> Panic.
Proof.
  unfold uri_parse. destruct (split_once "#"%char s) as [[a b]|];
    (destruct (split_once "?"%char _) as [[c d]|]);
    match goal with |- (if ?b then _ else _) <> _ => destruct b; [discriminate|] end;
    (destruct (split_once ":"%char _) as [[e f]|]; [destruct (scheme_ok e)|]); discriminate.
Qed.

Lemma invoice_parse_no_panic C s : invoice_from_str C s <> Panic.
Proof.
  unfold invoice_from_str. apply rbind_no_panic; [apply uri_parse_no_panic|]. intros u.
  apply rbind_no_panic; [apply ok_or_no_panic|]. intros sch.
  destruct (negb (streqb sch (lit "rgb"))); [discriminate|].
  match goal with |- (if ?b then _ else _) <> _ => destruct b; [discriminate|] end.
  cbv zeta. destruct (match uri_path u with [] => [] | _ => _ end) as [|cid [|ifc [|a segs]]]; try discriminate;
    (apply rbind_no_panic; [destruct (cid_parse C cid); [discriminate|destruct (streqb cid OMITTED); discriminate]|]);
    intros oc; try discriminate;
    (apply rbind_no_panic; [destruct (typename_ok C ifc); [discriminate|destruct (streqb ifc OMITTED); discriminate]|]);
    intros oi; match goal with |- (if ?b then _ else _) <> _ => destruct b; [discriminate|] end; try discriminate.
  apply rbind_no_panic.
  { destruct (split_once "+"%char a) as [[x y]|]; [destruct (state_from_str C x)|]; discriminate. }
  intros bv. apply rbind_no_panic.
  { unfold beneficiary_from_str. destruct (split_once ":"%char (fst bv)) as [[x y]|]; [|discriminate].
    apply rbind_no_panic; [apply ok_or_no_panic|]. intros cn.
    destruct (seal_parse C y); [discriminate|]. destruct (baid_parse C y) as [data|]; [|discriminate].
    apply rbind_no_panic; [|discriminate]. pose proof (p2v_try_from_no_panic C data).
    destruct (p2v_try_from C data); cbn; congruence. }
  intros b. apply rbind_no_panic.
  { unfold map_query_params. destruct (uri_query u); [|discriminate]. apply rfold_no_panic.
    intros m p. destruct (split_once "="%char p) as [[x y]|]; [|discriminate].
    unfold percent_decode. destruct (utf8 C (pct_decode x)); [|discriminate].
    destruct (utf8 C (pct_decode y)); discriminate. }
  intros q. destruct (imap_remove ENDPOINTS q) as [ep q'].
  apply rbind_no_panic.
  { destruct ep; [|discriminate]. apply rfold_no_panic. intros l0 t.
    pose proof (transport_no_panic t). destruct (transport_from_str t); cbn; congruence. }
  intros ts. destruct (imap_remove EXPIRY q') as [ex q''].
  apply rbind_no_panic.
  { destruct ex; [|discriminate]. apply rbind_no_panic; [apply ok_or_no_panic|discriminate]. }
  discriminate.
Qed.

(** ** C11: the builder *)
Lemma denotes_one s t : denotes_all [s] [t] <-> transport_from_str s = Ok t.
Proof.
  rewrite transport_parse. split.
  - intros H. inversion H as [|p h t' ss ts Hh Hin Hr E1 E2]; subst. exists p, h. auto.
  - intros (p & h & Hh & -> & Hin). constructor; [exact Hh|exact Hin|constructor].
Qed.
Lemma denotes_collect ss : forall ts, denotes_all ss ts <-> collect_ok (map transport_from_str ss) = Some ts.
Proof.
  induction ss as [|s ss IH]; intros ts; cbn [map collect_ok].
  - split; [intros H; inversion H; reflexivity|intros H; injection H as <-; constructor].
  - split.
    + intros H. inversion H as [|p h t ss' ts' Hh Hin Hr E1 E2]; subst.
      assert (E : transport_from_str (p ++ lit "://" ++ h) = Ok t) by (apply transport_parse; exists p, h; auto).
      apply IH in Hr. rewrite Hr. cbn [lit list_ascii_of_string app] in E. rewrite E. reflexivity.
    + destruct (transport_from_str s) as [t| |] eqn:E; try discriminate.
      destruct (collect_ok (map transport_from_str ss)) as [ts'|] eqn:F; [|discriminate].
      cbn. intros H. injection H as <-. apply transport_parse in E. destruct E as (p & h & Hh & -> & Hin).
      constructor; [exact Hh|exact Hin|]. apply IH. reflexivity.
Qed.

Lemma builder_fails_unchanged i c i' : builder_call i c = Failed i' -> i' = i.
Proof.
  assert (SA : forall n d p, set_amount i n d p = Failed i' -> i' = i).
  { intros n d p. unfold set_amount. destruct (coin_with n d p) as [ca|e|]; [|congruence|discriminate].
    destruct (to_amount_unchecked ca); discriminate. }
  destruct c; cbn [builder_call]; try discriminate; try (apply SA).
  - unfold set_amount_approx. destruct x; [destruct (num <=? 0)%Z; [congruence|apply SA]|apply SA|congruence|apply SA].
  - unfold add_transport. destruct (transport_from_str s); try discriminate; congruence.
  - unfold add_transports. destruct (collect_ok _); try discriminate; congruence.
Qed.

Lemma set_amount_done i n d p i' : set_amount i n d p = Done i' ->
  i' = set_state i (ISAmount (n * 10 ^ decimals p + d)) /\ d < 10 ^ decimals p.
Proof.
  unfold set_amount. rewrite coin_with_val. destruct (10 ^ decimals p <=? d) eqn:L; [discriminate|].
  apply N.leb_gt in L. pose proof (@coin_to_amount_partial PrecisionError {| ca_int := n; ca_fract := d; ca_precision := p |}) as [A B].
  cbn [ca_int ca_fract ca_precision] in A, B.
  destruct (N.lt_ge_cases (n * 10 ^ decimals p + d) (2 ^ 64)) as [X|X].
  - rewrite A by exact X. intros H. injection H as <-. auto.
  - rewrite B by (unfold u64; lia). discriminate.
Qed.

Lemma approx_div num k : (0 < num)%Z -> Z.to_N num / 2 ^ k = Z.to_N (num / 2 ^ Z.of_N k).
Proof.
  intros H. rewrite Z2N.inj_div by lia. f_equal.
  rewrite Z2N.inj_pow by lia. rewrite N2Z.id. reflexivity.
Qed.

Lemma builder_step i c i' : builder_call i c = Done i' ->
  contract i' = match asks_contract c with Some v => v | None => contract i end /\
  iface i' = match asks_iface c with Some v => v | None => iface i end /\
  operation i' = match asks_operation c with Some v => v | None => operation i end /\
  assignment i' = match asks_assignment c with Some v => v | None => assignment i end /\
  expiry i' = match asks_expiry c with Some v => v | None => expiry i end /\
  beneficiary i' = beneficiary i /\ unknown_query i' = unknown_query i.
Proof.
  assert (SA : forall n d p, set_amount i n d p = Done i' -> exists st, i' = set_state i st).
  { intros n d p H. apply set_amount_done in H. destruct H as [-> _]. eauto. }
  assert (ST : (exists st, i' = set_state i st) -> contract i' = contract i /\ iface i' = iface i /\
      operation i' = operation i /\ assignment i' = assignment i /\ expiry i' = expiry i /\
      beneficiary i' = beneficiary i /\ unknown_query i' = unknown_query i).
  { intros [st ->]. auto 10. }
  assert (TR : forall ts, contract (add_transports_raw i ts) = contract i /\ iface (add_transports_raw i ts) = iface i /\
      operation (add_transports_raw i ts) = operation i /\ assignment (add_transports_raw i ts) = assignment i /\
      expiry (add_transports_raw i ts) = expiry i /\
      beneficiary (add_transports_raw i ts) = beneficiary i /\ unknown_query (add_transports_raw i ts) = unknown_query i).
  { intros ts. unfold add_transports_raw, drop_unspecified_transport.
    destruct (is_sole_unspecified (transports i)); cbn; auto 10. }
  destruct c; cbn [builder_call asks_contract asks_iface asks_operation asks_assignment asks_expiry];
    try (intros H; injection H as <-; cbn; auto 10; fail).
  - intros H. apply ST. exact (SA _ _ _ H).
  - unfold set_amount_approx. intros H. apply ST. destruct x; [destruct (num <=? 0)%Z; [discriminate|]|..|]; try discriminate; exact (SA _ _ _ H).
  - unfold add_transport. destruct (transport_from_str s); try discriminate. intros H. injection H as <-. exact (TR [a]).
  - intros H. injection H as <-. exact (TR [t]).
  - unfold add_transports. destruct (collect_ok _); try discriminate. intros H. injection H as <-. apply TR.
  - intros H. injection H as <-. apply TR.
Qed.

Lemma builder_state i c i' : builder_call i c = Done i' ->
  exists o, asks_state c o /\ owned_state i' = match o with Some v => v | None => owned_state i end.
Proof.
  assert (TR : forall ts, owned_state (add_transports_raw i ts) = owned_state i).
  { intros ts. unfold add_transports_raw, drop_unspecified_transport.
    destruct (is_sole_unspecified (transports i)); reflexivity. }
  destruct c; cbn [builder_call];
    try (intros H; injection H as <-; eexists; split; [constructor; exact I|cbn; auto]; fail).
  - intros H. apply set_amount_done in H. destruct H as [-> L]. eexists. split; [constructor; exact L|]. reflexivity.
  - unfold set_amount_approx. destruct x as [num k| | |].
    2:{ intros H. apply set_amount_done in H. destruct H as [-> _]. eexists. split; [apply ask_approx_infinity|]. cbn [owned_state set_state]. rewrite N.add_0_r. reflexivity. }
    2:discriminate.
    2:{ intros H. apply set_amount_done in H. destruct H as [-> _]. eexists. split; [apply ask_approx_nan|]. reflexivity. }
    destruct (Z.leb_spec num 0) as [L|L]; [discriminate|]. cbv zeta.
    pose proof (N.mod_lt (Z.to_N num) (2 ^ k) ltac:(apply N.pow_nonzero; lia)) as ML.
    pose proof (N.div_mod (Z.to_N num) (2 ^ k) ltac:(apply N.pow_nonzero; lia)) as DM.
    replace ((Z.to_N num - Z.to_N num / 2 ^ k * 2 ^ k) / 2 ^ k) with 0.
    2:{ symmetry. apply N.div_small. lia. }
    intros H. apply set_amount_done in H. destruct H as [-> _].
    eexists. split; [constructor; exact L|].
    rewrite (approx_div num k L), N.add_0_r. reflexivity.
  - unfold add_transport. destruct (transport_from_str s); try discriminate. intros H. injection H as <-.
    eexists. split; [constructor; exact I|]. exact (TR [a]).
  - intros H. injection H as <-. eexists. split; [constructor; exact I|]. exact (TR [t]).
  - unfold add_transports. destruct (collect_ok _); try discriminate. intros H. injection H as <-.
    eexists. split; [constructor; exact I|]. apply TR.
  - intros H. injection H as <-. eexists. split; [constructor; exact I|]. apply TR.
Qed.

Lemma adds_transports c i o : adds c o ->
  match builder_call i c with
  | Done i' => transports i' = match o with
                               | Some l => (if is_sole_unspecified (transports i) then [] else transports i) ++ l
                               | None => transports i
                               end
  | Failed i' => i' = i /\ o = None
  | Panicked => o = None
  end.
Proof.
  assert (TR : forall ts, transports (add_transports_raw i ts) =
     (if is_sole_unspecified (transports i) then [] else transports i) ++ ts).
  { intros ts. unfold add_transports_raw, drop_unspecified_transport.
    destruct (is_sole_unspecified (transports i)); reflexivity. }
  intros A. destruct A as [s t D|s D|t|ss ts D|ss D|ts|c D]; cbn [builder_call].
  - unfold add_transport. apply denotes_one in D. rewrite D. exact (TR [t]).
  - unfold add_transport. destruct (transport_from_str s) as [t| |] eqn:E; [|auto|auto].
    destruct (D t). apply denotes_one. exact E.
  - exact (TR [t]).
  - unfold add_transports. apply denotes_collect in D. rewrite D. apply TR.
  - unfold add_transports. destruct (collect_ok _) as [ts|] eqn:E; [|auto].
    destruct (D ts). apply denotes_collect. exact E.
  - apply TR.
  - assert (SA : forall n d p, match set_amount i n d p with
       | Done i' => transports i' = transports i
       | Failed i' => i' = i /\ (None : option (list RgbTransport)) = None
       | Panicked => (None : option (list RgbTransport)) = None end).
    { intros n d p. destruct (set_amount i n d p) as [i'|i'|] eqn:E; [|split; [|reflexivity]|reflexivity].
      - apply set_amount_done in E. destruct E as [-> _]. reflexivity.
      - apply (builder_fails_unchanged i (CSetAmount n d p)). exact E. }
    destruct c; try contradiction; cbn [builder_call]; try reflexivity; try apply SA.
    unfold set_amount_approx. destruct x; [destruct (num <=? 0)%Z; [auto|apply SA]|apply SA|auto|apply SA].
Qed.

Lemma builder_run_app i cs1 cs2 : builder_run i (cs1 ++ cs2) =
  match builder_run i cs1 with Some i' => builder_run i' cs2 | None => None end.
Proof.
  revert i. induction cs1 as [|c cs1 IH]; intros i; cbn [app builder_run]; [reflexivity|].
  destruct (builder_call i c); auto.
Qed.

Lemma adds_no_placeholder c l : adds c (Some l) -> ~ raw_placeholder c -> ~ In UnspecifiedMeans l.
Proof.
  assert (D : forall ss ts, denotes_all ss ts -> ~ In UnspecifiedMeans ts).
  { induction 1 as [|p h t ss ts Hh Hin Hr IH]; [auto|]. intros [X|X]; [subst t|auto].
    cbn in Hin. intuition discriminate. }
  intros A N. inversion A; subst; cbn [raw_placeholder] in N; try (eapply D; eassumption).
  - intros [X|[]]. congruence.
  - exact N.
Qed.

Lemma builder_transports b cs : Forall (fun c => ~ raw_placeholder c) cs -> forall o, adds_seq cs o ->
  forall i, builder_run (builder_new b) cs = Some i ->
    transports i = match o with Some l => l | None => [UnspecifiedMeans] end /\
    match o with Some l => ~ In UnspecifiedMeans l | None => True end.
Proof.
  intros F o S. induction S as [|cs c o S IH A|cs c l S IH A|cs c l l' S IH A]; intros i R.
  - injection R as <-. auto.
  - apply Forall_app in F. destruct F as [F1 F2]. rewrite builder_run_app in R.
    destruct (builder_run (builder_new b) cs) as [i0|]; [|discriminate].
    destruct (IH F1 i0 eq_refl) as [T N]. cbn [builder_run] in R.
    pose proof (adds_transports c i0 None A) as X.
    destruct (builder_call i0 c) as [i1|i1|]; [| |discriminate]; injection R as <-.
    + rewrite X. auto.
    + destruct X as [-> _]. auto.
  - apply Forall_app in F. destruct F as [F1 F2]. rewrite builder_run_app in R.
    destruct (builder_run (builder_new b) cs) as [i0|]; [|discriminate].
    destruct (IH F1 i0 eq_refl) as [T N]. cbn [builder_run] in R.
    pose proof (adds_transports c i0 _ A) as X.
    split; [|exact (adds_no_placeholder c l A (Forall_inv F2))].
    destruct (builder_call i0 c) as [i1|i1|]; [| |discriminate]; injection R as <-.
    + rewrite X, T. reflexivity.
    + destruct X; discriminate.
  - apply Forall_app in F. destruct F as [F1 F2]. rewrite builder_run_app in R.
    destruct (builder_run (builder_new b) cs) as [i0|]; [|discriminate].
    destruct (IH F1 i0 eq_refl) as [T N]. cbn [builder_run] in R.
    pose proof (adds_transports c i0 _ A) as X.
    pose proof (adds_no_placeholder c l' A (Forall_inv F2)) as NP.
    split; [|intros Y; apply in_app_iff in Y; tauto].
    destruct (builder_call i0 c) as [i1|i1|]; [| |discriminate]; injection R as <-.
    + rewrite X, T. destruct (is_sole_unspecified l) eqn:U; [|reflexivity].
      destruct l as [|[] [|]]; try discriminate. destruct N. left. reflexivity.
    + destruct X; discriminate.
Qed.

(** Every call sequence has such a description. *)
Lemma adds_total c : exists o, adds c o.
Proof.
  destruct c; try (exists None; apply ad_other; exact I).
  - destruct (transport_from_str s) as [t| |] eqn:E.
    + exists (Some [t]). constructor. apply denotes_one. exact E.
    + exists None. constructor. intros t D. apply denotes_one in D. congruence.
    + exists None. constructor. intros t D. apply denotes_one in D. congruence.
  - eexists. constructor.
  - destruct (collect_ok (map transport_from_str ss)) as [ts|] eqn:E.
    + exists (Some ts). constructor. apply denotes_collect. exact E.
    + exists None. constructor. intros t D. apply denotes_collect in D. congruence.
  - eexists. constructor.
Qed.
Lemma adds_seq_total cs : exists o, adds_seq cs o.
Proof.
  induction cs as [|c cs [o IH]] using rev_ind; [exists None; constructor|].
  destruct (adds_total c) as [[l'|] A].
  - destruct o as [l|]; [exists (Some (l ++ l')); apply as_more; assumption|exists (Some l'); apply as_first; assumption].
  - exists o. apply as_skip; assumption.
Qed.

Lemma builder_list_sane b cs i : Forall (fun c => ~ raw_placeholder c) cs ->
  builder_run (builder_new b) cs = Some i ->
  transports i = [UnspecifiedMeans] \/ ~ In UnspecifiedMeans (transports i).
Proof.
  intros F R. destruct (adds_seq_total cs) as [o S].
  destruct (builder_transports b cs F o S i R) as [-> N]. destruct o; auto.
Qed.

(** When a call fails. *)
Lemma builder_fail_iff i c : (exists i', builder_call i c = Failed i') <->
  match c with
  | CSetAmount n d p => 10 ^ decimals p <= d
  | CSetAmountApprox (F64Finite num _) _ => (num <= 0)%Z
  | CSetAmountApprox F64NegInfinity _ => True
  | CAddTransport s => forall t, ~ denotes_all [s] [t]
  | CAddTransports ss => forall ts, ~ denotes_all ss ts
  | _ => False
  end.
Proof.
  assert (SA : forall n d p, (exists i', set_amount i n d p = Failed i') <-> 10 ^ decimals p <= d).
  { intros n d p. unfold set_amount. rewrite coin_with_val. destruct (10 ^ decimals p <=? d) eqn:L.
    - apply N.leb_le in L. split; [auto|eauto].
    - apply N.leb_gt in L. split; [|lia]. intros [i' H].
      destruct (@to_amount_unchecked PrecisionError _); discriminate. }
  destruct c; cbn [builder_call]; try (split; [intros [i' H]; discriminate|tauto]).
  - apply SA.
  - assert (T : 0 < 10 ^ decimals p) by (apply N.neq_0_lt_0, N.pow_nonzero; lia).
    unfold set_amount_approx. destruct x as [num k| | |]; [|rewrite SA; lia|split; eauto|rewrite SA; lia].
    destruct (Z.leb_spec num 0) as [L|L]; [split; eauto|].
    cbv zeta.
    pose proof (N.mod_lt (Z.to_N num) (2 ^ k) ltac:(apply N.pow_nonzero; lia)) as ML.
    pose proof (N.div_mod (Z.to_N num) (2 ^ k) ltac:(apply N.pow_nonzero; lia)) as DM.
    rewrite SA. rewrite (N.div_small (Z.to_N num - _)) by lia.
    assert (0 < 10 ^ decimals p) by (apply N.neq_0_lt_0, N.pow_nonzero; lia). lia.
  - unfold add_transport. destruct (transport_from_str s) as [t| |] eqn:E.
    + split; [intros [? H]; discriminate|]. intros D. destruct (D t). apply denotes_one. exact E.
    + split; [|eauto]. intros _ t D. apply denotes_one in D. congruence.
    + split; [|eauto]. intros _ t D. apply denotes_one in D. congruence.
  - unfold add_transports. destruct (collect_ok (map transport_from_str ss)) as [ts|] eqn:E.
    + split; [intros [? H]; discriminate|]. intros D. destruct (D ts). apply denotes_collect. exact E.
    + split; [|eauto]. intros _ t D. apply denotes_collect in D. congruence.
Qed.

(** When a call panics. *)
Lemma builder_panics i c : builder_call i c = Panicked <->
  exists n p d, d < 10 ^ decimals p /\ 2 ^ 64 <= n * 10 ^ decimals p + d /\
    (c = CSetAmount n d p \/
     d = 0 /\ exists x, c = CSetAmountApprox x p /\
       (x = F64Infinity /\ n = 2 ^ 64 - 1 \/ exists num k, x = F64Finite num k /\ (0 < num)%Z /\ n = N.min (Z.to_N (num / 2 ^ Z.of_N k)) (2 ^ 64 - 1))).
Proof.
  assert (SA : forall n d p, set_amount i n d p = Panicked <-> d < 10 ^ decimals p /\ 2 ^ 64 <= n * 10 ^ decimals p + d).
  { intros n d p. unfold set_amount. rewrite coin_with_val. destruct (10 ^ decimals p <=? d) eqn:L.
    - apply N.leb_le in L. split; [discriminate|lia].
    - apply N.leb_gt in L. pose proof (@coin_to_amount_partial PrecisionError {| ca_int := n; ca_fract := d; ca_precision := p |}) as [A B].
      cbn [ca_int ca_fract ca_precision] in A, B.
      destruct (N.lt_ge_cases (n * 10 ^ decimals p + d) (2 ^ 64)) as [X|X].
      + rewrite A by exact X. split; [discriminate|lia].
      + rewrite B by (unfold u64; lia). tauto. }
  assert (T : forall p, 0 < 10 ^ decimals p) by (intros p; apply N.neq_0_lt_0, N.pow_nonzero; lia).
  assert (AP : forall num k p, (0 < num)%Z -> set_amount_approx i (F64Finite num k) p = set_amount i (N.min (Z.to_N (num / 2 ^ Z.of_N k)) (2 ^ 64 - 1)) 0 p).
  { intros num k p L. unfold set_amount_approx. destruct (Z.leb_spec num 0) as [L'|_]; [lia|]. cbv zeta.
    pose proof (N.mod_lt (Z.to_N num) (2 ^ k) ltac:(apply N.pow_nonzero; lia)) as ML.
    pose proof (N.div_mod (Z.to_N num) (2 ^ k) ltac:(apply N.pow_nonzero; lia)) as DM.
    rewrite (N.div_small (Z.to_N num - _)) by lia. rewrite (approx_div num k L). reflexivity. }
  split.
  - intros Hc. destruct c; cbn [builder_call] in Hc; try discriminate.
    + apply SA in Hc. destruct Hc as [A B]. eexists _, p, _. split; [exact A|]. split; [exact B|]. left. reflexivity.
    + destruct x as [num k| | |].
      * destruct (Z.leb_spec num 0) as [L|L].
        { unfold set_amount_approx in Hc. apply Z.leb_le in L. rewrite L in Hc. discriminate. }
        rewrite (AP num k p L) in Hc. apply SA in Hc. destruct Hc as [A B]. eexists _, p, 0. split; [exact A|]. split; [exact B|].
        right. split; [reflexivity|]. eexists. split; [reflexivity|]. right. eauto.
      * apply SA in Hc. destruct Hc as [A B]. exists U64MAX, p, 0. split; [exact A|]. split; [exact B|]. right. split; [reflexivity|].
        eexists. split; [reflexivity|]. left. split; reflexivity.
      * discriminate.
      * apply SA in Hc. destruct Hc as [A B]. lia.
    + unfold add_transport in Hc. destruct (transport_from_str s); discriminate.
    + unfold add_transports in Hc. destruct (collect_ok _); discriminate.
  - intros (n & p & d & A & B & [->|(-> & x & -> & [(-> & ->)|(num & k & -> & L & ->)])]); cbn [builder_call].
    + apply SA. auto.
    + apply SA. auto.
    + rewrite (AP num k p L). apply SA. auto.
Qed.

(** ** Allocations as data *)
Lemma le_bytes_back k n : n < 256 ^ N.of_nat k -> from_le_bytes (to_le_bytes k n) = n.
Proof.
  revert n. induction k as [|k IH]; intros n Hn.
  - cbn in *. lia.
  - cbn [to_le_bytes from_le_bytes]. rewrite IH.
    + rewrite N.add_comm. rewrite <- N.div_mod by lia. reflexivity.
    + rewrite Nat2N.inj_succ, N.pow_succ_r' in Hn. apply N.div_lt_upper_bound; lia.
Qed.
Lemma le_bytes_length k n : length (to_le_bytes k n) = k.
Proof. revert n. induction k as [|k IH]; intros n; cbn [to_le_bytes length]; [reflexivity|rewrite IH; reflexivity]. Qed.
Lemma le_bytes_byte k n : Forall (fun b => b < 256) (to_le_bytes k n).
Proof. revert n. induction k as [|k IH]; intros n; cbn [to_le_bytes]; constructor; [apply N.mod_lt; lia|apply IH]. Qed.
Lemma le_bytes_of l : Forall (fun b => b < 256) l -> to_le_bytes (length l) (from_le_bytes l) = l.
Proof.
  induction 1 as [|b l Hb _ IH]; cbn [length to_le_bytes from_le_bytes]; [reflexivity|]. f_equal.
  - rewrite N.mul_comm, N.mod_add by lia. apply N.mod_small, Hb.
  - rewrite N.mul_comm, N.div_add by lia. rewrite N.div_small by exact Hb. exact IH.
Qed.
Lemma from_le_bound l : Forall (fun b => b < 256) l -> from_le_bytes l < 256 ^ N.of_nat (length l).
Proof.
  induction 1 as [|b l Hb _ IH]; cbn [length from_le_bytes]; [reflexivity|]. rewrite Nat2N.inj_succ, N.pow_succ_r'. lia.
Qed.

(** ** Concrete codecs satisfying the assumptions *)
Definition num_print (p : str) (n : N) : str := p ++ "-"%char :: dec_print n.
Definition num_parse (p : str) (s : str) : option N :=
  match strip_prefix p (undashed s) with Some (c :: r) => dec_value (c :: r) | _ => None end.
Definition sample_baid (l : list N) : str := lit "w-" ++ base32_encode l.
Definition sample_baid_parse (s : str) : option (list N) :=
  match strip_prefix (lit "w") (undashed s) with
  | Some r => match base32_decode r with Ok l => Some l | _ => None end
  | None => None
  end.
Definition name_char (c : ascii) : bool := is_alpha c || is_digit c || is_char c "_"%char.
Definition sample : Codecs := {|
  cid_body := num_print (lit "c"); cid_parse := num_parse (lit "c");
  seal_print := num_print (lit "s"); seal_parse := num_parse (lit "s");
  attach_print := num_print (lit "x."); attach_parse := num_parse (lit "x.");
  baid_print := sample_baid; baid_parse := sample_baid_parse;
  typename_ok := fun s => match s with [] => false | c :: r => is_alpha c && forallb name_char r end;
  tapkey_ok := fun k => negb (forallb (N.eqb 0) k);
  utf8 := fun s => forallb (fun c => N_of_ascii c <? 128) s
|}.

Lemma undashed_id s : ~ In "-"%char s -> undashed s = s.
Proof.
  intros H. apply filter_id. apply Forall_forall. intros c X.
  apply negb_true_iff. apply Ascii.eqb_neq. intros ->. exact (H X).
Qed.
Lemma undashed_idem s : undashed (undashed s) = undashed s.
Proof. apply undashed_id. unfold undashed. rewrite filter_In. intros [_ X]. discriminate. Qed.

Lemma num_codec p n : ~ In "-"%char p ->
  num_parse p (num_print p n) = Some n /\ num_parse p (undashed (num_print p n)) = Some n.
Proof.
  intros H.
  assert (U : undashed (num_print p n) = p ++ dec_print n).
  { unfold num_print. rewrite undashed_app, (undashed_id p H). f_equal.
    change (undashed ("-"%char :: dec_print n)) with (undashed (dec_print n)).
    apply undashed_id. apply dec_print_no. reflexivity. }
  unfold num_parse. rewrite undashed_idem, U, strip_prefix_app.
  pose proof (dec_value_print n). pose proof (dec_print_nonempty n).
  destruct (dec_print n); [congruence|auto].
Qed.

Lemma num_text p n : id_text p -> id_text (num_print p n).
Proof.
  intros H. apply Forall_app. split; [exact H|]. constructor; [vm_compute; tauto|].
  eapply Forall_impl; [|apply dec_print_digits]. intros c D.
  pose (P := fun c => negb (is_digit c) || existsb (is_char c) id_letters).
  assert (HP : forallb P all_ascii = true) by (vm_compute; reflexivity).
  pose proof (ascii_cases P HP c) as X. unfold P in X. rewrite D in X. cbn [negb orb] in X.
  apply existsb_exists in X. destruct X as (y & Y & E). apply is_char_eq in E. subst y. exact Y.
Qed.

Lemma class_letters (P : ascii -> bool) (l : str) :
  forallb (fun c => negb (P c) || existsb (is_char c) l) all_ascii = true ->
  forall c, P c = true -> In c l.
Proof.
  intros H c D. pose proof (ascii_cases _ H c) as X. cbv beta in X. rewrite D in X. cbn [negb orb] in X.
  apply existsb_exists in X. destruct X as (y & Y & E). apply is_char_eq in E. subst y. exact Y.
Qed.

Lemma sample_ok : codecs_ok sample.
Proof.
  assert (B32 : forall l, bytes 34 l -> base32_decode (base32_encode l) = Ok l /\
             Forall (fun c => In c amount_letters) (base32_encode l)).
  { intros l [_ Hl]. pose proof (base32_round_trip l Hl) as R. split; [exact R|].
    apply base32_decode_sound in R. tauto. }
  assert (BU : forall l, bytes 34 l -> undashed (sample_baid l) = lit "w" ++ base32_encode l).
  { intros l Hl. unfold sample_baid. rewrite undashed_app. apply (f_equal2 (@app ascii)); [reflexivity|].
    apply undashed_id. destruct (B32 l Hl) as [_ F]. rewrite Forall_forall in F. intros X.
    apply F in X. vm_compute in X. intuition discriminate. }
  assert (BP : forall l s, bytes 34 l -> undashed s = lit "w" ++ base32_encode l -> sample_baid_parse s = Some l).
  { intros l s Hl E. unfold sample_baid_parse. rewrite E, strip_prefix_app, (proj1 (B32 l Hl)). reflexivity. }
  constructor; cbn [sample cid_body cid_parse seal_print seal_parse attach_print attach_parse baid_print
                    baid_parse typename_ok tapkey_ok utf8].
  - intros i. apply num_codec. notin.
  - intros i. apply num_codec. notin.
  - intros i. apply num_text. repeat constructor; vm_compute; tauto.
  - vm_compute. reflexivity.
  - vm_compute. reflexivity.
  - intros i. apply num_codec. notin.
  - intros i. apply num_codec. notin.
  - intros i. apply num_text. repeat constructor; vm_compute; tauto.
  - intros i. apply num_codec. notin.
  - intros i. apply num_text. repeat constructor; vm_compute; tauto.
  - intros i. right. left. vm_compute. intuition discriminate.
  - intros l Hl. apply (BP l _ Hl). apply BU. exact Hl.
  - intros l Hl. apply (BP l _ Hl). rewrite undashed_idem. apply BU. exact Hl.
  - intros l Hl. apply Forall_app. split; [repeat constructor; vm_compute; tauto|].
    eapply Forall_impl; [|apply (B32 l Hl)]. intros c X.
    refine (class_letters (fun c => existsb (is_char c) amount_letters) id_letters _ c _); [vm_compute; reflexivity|].
    apply existsb_exists. exists c. split; [exact X|apply is_char_refl].
  - intros l Hl. unfold num_parse. rewrite (BU l Hl). reflexivity.
  - intros l Hl. unfold num_parse. rewrite undashed_idem, (BU l Hl). reflexivity.
  - intros [|c r]; [discriminate|]. intros H. apply andb_true_iff in H. destruct H as [A B].
    constructor.
    + refine (class_letters is_alpha id_letters _ c A). vm_compute. reflexivity.
    + rewrite forallb_forall in B. apply Forall_forall. intros d D.
      refine (class_letters name_char id_letters _ d (B d D)). vm_compute. reflexivity.
  - reflexivity.
  - intros s H. apply forallb_forall. rewrite Forall_forall in H. intros c X. apply N.ltb_lt. auto.
  - intros s t A B. rewrite forallb_app, A, B. reflexivity.
Qed.

(** An invoice with everything the URI can carry. *)
Definition sample_invoice : RgbInvoice :=
  {| transports := [JsonRpc true (lit "node.example:3000/rpc?x=1"); Storm; WebSockets false (lit "h")];
     contract := Some 42; iface := Some (lit "RGB20Fixed"); operation := None; assignment := None;
     beneficiary := XBitcoinSignet (WitnessVout {| p2v_method := TapretFirst;
        p2v_address := Wpkh [1;2;3;4;5;6;7;8;9;10;11;12;13;14;15;16;17;18;19;255] |});
     owned_state := ISData {| al_index := 7; al_fraction := 18446744073709551615 |};
     expiry := Some (-9223372036854775808)%Z;
     unknown_query := [(lit "memo", lit "a b&c=d#e"); ([], lit "[x]")] |}.
Lemma sample_invoice_printable : printable sample sample_invoice.
Proof.
  assert (Q : forall s, forallb (fun c => negb (unsafe c) && (N_of_ascii c <? 128)) s = true -> query_text_ok sample s).
  { intros s. apply qok_lit. apply sample_ok. }
  constructor; cbn.
  - right. split; [discriminate|]. repeat apply Forall_cons; try apply Forall_nil; cbn [endpoint_ok]; auto;
      (split; [discriminate|]); (split; [cbn; intuition discriminate|]); apply Q; reflexivity.
  - discriminate.
  - intros n H. injection H as <-. vm_compute. reflexivity.
  - reflexivity.
  - reflexivity.
  - discriminate.
  - split; [reflexivity|]. repeat constructor.
  - unfold u64. vm_compute. split; reflexivity.
  - intros e H. injection H as <-. unfold i64. lia.
  - repeat constructor; cbn; intuition discriminate.
  - cbn. intuition discriminate.
  - repeat apply Forall_cons; try apply Forall_nil; split; apply Q; reflexivity.
Qed.
