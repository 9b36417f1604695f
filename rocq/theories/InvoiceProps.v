(** Properties C06-C11. *)
From Coq Require Import Ascii String.
From Verif Require Import Base Str AmountModel AmountSpec InvoiceModel InvoiceSpec InvoiceProofs.
Local Open Scope N_scope.

(** * C06: beneficiary payload *)

Theorem C06_round_trip : forall C p, address_ok C (p2v_address p) ->
  exists l, @p2v_payload Pay2VoutError p = Ok l /\ bytes 34 l /\ p2v_try_from C l = Ok p.
Proof.
  intros C p H. destruct (p2v_payload_bytes C p H) as (l & E & B). exists l.
  split; [apply E|]. split; [exact B|]. exact (p2v_round_trip C p l H (E _)).
Qed.
Print Assumptions C06_round_trip.

Theorem C06_decode_exact : forall C m t r p, bytes 34 (m :: t :: r) ->
  (p2v_try_from C (m :: t :: r) = Ok p <->
   ((m = 0 /\ p2v_method p = OpretFirst) \/ (m = 1 /\ p2v_method p = TapretFirst)) /\
   ((t = 1 /\ p2v_address p = Pkh (firstn 20 r)) \/ (t = 2 /\ p2v_address p = Sh (firstn 20 r)) \/
    (t = 3 /\ p2v_address p = Wpkh (firstn 20 r)) \/ (t = 4 /\ p2v_address p = Wsh r) \/
    (t = 5 /\ p2v_address p = Tr r /\ tapkey_ok C r = true))).
Proof. exact p2v_decode. Qed.
Print Assumptions C06_decode_exact.

Theorem C06_decode_no_panic : forall C l, p2v_try_from C l <> Panic.
Proof. exact p2v_try_from_no_panic. Qed.
Print Assumptions C06_decode_no_panic.

Example C06_ex :
  let p := {| p2v_method := TapretFirst; p2v_address := Sh (repeat 9 20) |} in
  address_ok sample (p2v_address p) /\
  @p2v_payload Pay2VoutError p = Ok ([1; 2] ++ repeat 9 20 ++ repeat 0 12) /\
  p2v_try_from sample (repeat 0 34) = Err (InvalidAddressType 0) /\
  p2v_try_from sample (2 :: repeat 0 33) = Err (InvalidMethod 2) /\
  p2v_try_from sample (1 :: 5 :: repeat 0 32) = Err InvalidTapkey.
Proof. cbv zeta. split; [split; [reflexivity|repeat constructor]|]. vm_compute. auto. Qed.

(** * C07: chain-network codes *)

(** All networks but Liquid mainnet keep their code. *)
Theorem C07_round_trip_partial : forall n, n <> LiquidMainnet ->
  chainnet_from_str (chainnet_display n) = Some n.
Proof. exact chainnet_round_trip. Qed.
Print Assumptions C07_round_trip_partial.

(** What the parser accepts, exactly. *)
Theorem C07_parse_exact : forall s n, chainnet_from_str s = Some n <->
  exists m, map ascii_lower s = chainnet_display m /\
            n = (if match m with LiquidMainnet => true | _ => false end then BitcoinMainnet else m).
Proof. exact chainnet_parse. Qed.
Print Assumptions C07_parse_exact.

Theorem C07_production_separate : forall s n m,
  chainnet_from_str s = Some n -> map ascii_lower s = chainnet_display m -> is_prod n = is_prod m.
Proof. exact chainnet_prod. Qed.
Print Assumptions C07_production_separate.

(** Full property: refuted; a Liquid invoice becomes a Bitcoin one. *)
Theorem C07_round_trip_refuted :
  ~ (forall n, chainnet_from_str (chainnet_display n) = Some n) /\
  chainnet_from_str (chainnet_display LiquidMainnet) = Some BitcoinMainnet /\
  layer1 BitcoinMainnet <> layer1 LiquidMainnet.
Proof.
  split; [|split; [reflexivity|discriminate]]. intros H. specialize (H LiquidMainnet). discriminate H.
Qed.
Print Assumptions C07_round_trip_refuted.

Theorem C07_wrapper : forall T (t : T) n,
  chain_network (xcn_with n t) = n /\ xcn_into_inner (xcn_with n t) = t /\
  (forall x : XChainNet T, xcn_with (chain_network x) (xcn_into_inner x) = x) /\
  (layer1 n = Liquid <-> n = LiquidMainnet \/ n = LiquidTestnet) /\
  (address_network n = AddrMainnet <-> is_prod n = true) /\
  (address_network n = AddrRegtest <-> n = BitcoinRegtest) /\
  (forall w, xcn_into_inner (xcn_bitcoin w t) = t /\
     (chain_network (xcn_bitcoin w t) = BitcoinMainnet <-> w = NetMainnet) /\
     (chain_network (xcn_bitcoin w t) = BitcoinTestnet <-> w = NetTestnet3 \/ w = NetTestnet4) /\
     (chain_network (xcn_bitcoin w t) = BitcoinSignet <-> w = NetSignet) /\
     (chain_network (xcn_bitcoin w t) = BitcoinRegtest <-> w = NetRegtest)).
Proof.
  intros T t n. split; [destruct n; reflexivity|]. split; [destruct n; reflexivity|]. split; [intros []; reflexivity|].
  split; [destruct n; cbn; intuition discriminate|]. split; [destruct n; cbn; intuition discriminate|].
  split; [destruct n; cbn; intuition discriminate|].
  intros w. split; [destruct w; reflexivity|]. repeat split; destruct w; cbn; intuition discriminate.
Qed.
Print Assumptions C07_wrapper.

Example C07_ex : chainnet_from_str (lit "BcRt") = Some BitcoinRegtest /\
  BitcoinRegtest <> LiquidMainnet /\ chainnet_from_str (lit "bc1") = None.
Proof. vm_compute. repeat split; discriminate. Qed.

(** * C08: allocation text *)

Theorem C08_round_trip : forall a, al_index a < 2 ^ 32 -> u64 (al_fraction a) ->
  allocation_from_str (allocation_display a) = Ok a.
Proof. exact allocation_round_trip. Qed.
Print Assumptions C08_round_trip.

Theorem C08_parse_exact : forall s a, allocation_from_str s = Ok a <->
  exists F I, s = F ++ "@"%char :: I /\ ~ In "@"%char F /\
    number (2 ^ 64) F (al_fraction a) /\ number (2 ^ 32) I (al_index a).
Proof. exact allocation_parse. Qed.
Print Assumptions C08_parse_exact.

Theorem C08_injective : forall a b, al_index a < 2 ^ 32 -> u64 (al_fraction a) ->
  al_index b < 2 ^ 32 -> u64 (al_fraction b) ->
  allocation_display a = allocation_display b -> a = b.
Proof. exact allocation_injective. Qed.
Print Assumptions C08_injective.

Theorem C08_no_panic : forall s, allocation_from_str s <> Panic.
Proof. exact allocation_no_panic. Qed.
Print Assumptions C08_no_panic.

(** Allocations stored as data are read back, differ if they differ, and anything but the data
    of an allocation is a panic. *)
Theorem C08_data : forall E,
  (forall a, al_index a < 2 ^ 32 -> u64 (al_fraction a) -> @allocation_from_data E (allocation_to_data a) = Ok a) /\
  (forall a, length (allocation_to_data a) = 12%nat /\ Forall (fun b => b < 256) (allocation_to_data a)) /\
  (forall d, Forall (fun b => b < 256) d ->
     ((exists a, al_index a < 2 ^ 32 /\ u64 (al_fraction a) /\ d = allocation_to_data a) <-> @allocation_from_data E d <> Panic) /\
     (@allocation_from_data E d <> Panic <-> length d = 12%nat)) /\
  (forall i f, token_index (allocation_with i f) = i /\ fraction (allocation_with i f) = f).
Proof.
  intros E. assert (B : forall a, al_index a < 2 ^ 32 -> u64 (al_fraction a) -> @allocation_from_data E (allocation_to_data a) = Ok a).
  { intros a Hi Hf. unfold allocation_from_data, allocation_to_data.
    replace (len (to_le_bytes 4 (al_index a) ++ to_le_bytes 8 (al_fraction a)) =? 12) with true
      by (unfold len; rewrite app_length, !le_bytes_length; reflexivity).
    assert (E4 : firstn 4 (to_le_bytes 4 (al_index a) ++ to_le_bytes 8 (al_fraction a)) = to_le_bytes 4 (al_index a)) by reflexivity.
    assert (E8 : skipn 4 (to_le_bytes 4 (al_index a) ++ to_le_bytes 8 (al_fraction a)) = to_le_bytes 8 (al_fraction a)) by reflexivity.
    rewrite E4, E8, !le_bytes_back; [destruct a; reflexivity|exact Hf|exact Hi]. }
  split; [exact B|]. split.
  { intros a. split; [unfold allocation_to_data; rewrite app_length, !le_bytes_length; reflexivity|apply Forall_app; split; apply le_bytes_byte]. }
  split; [|intros i f; split; reflexivity].
  intros d Hd. assert (L : @allocation_from_data E d <> Panic <-> length d = 12%nat).
  { unfold allocation_from_data, len. destruct (N.eqb_spec (N.of_nat (length d)) 12) as [Hl|Hl].
    - split; [lia|discriminate].
    - split; [congruence|lia]. }
  split; [|exact L]. rewrite L. split.
  - intros (a & _ & _ & ->). unfold allocation_to_data. rewrite app_length, !le_bytes_length. reflexivity.
  - intros Hl. assert (H4 : length (firstn 4 d) = 4%nat) by (rewrite firstn_length; lia). assert (H8 : length (skipn 4 d) = 8%nat) by (rewrite skipn_length; lia).
    rewrite <- (firstn_skipn 4 d) in Hd. apply Forall_app in Hd as [D4 D8].
    exists {| al_index := from_le_bytes (firstn 4 d); al_fraction := from_le_bytes (skipn 4 d) |}. unfold allocation_to_data. cbn [al_index al_fraction].
    pose proof (from_le_bound _ D4) as B4. pose proof (from_le_bound _ D8) as B8. rewrite H4 in B4. rewrite H8 in B8.
    split; [exact B4|]. split; [exact B8|].
    rewrite <- H4 at 1. rewrite (le_bytes_of _ D4). rewrite <- H8. rewrite (le_bytes_of _ D8). symmetry. apply firstn_skipn.
Qed.
Print Assumptions C08_data.
Example C08_ex :
  allocation_display {| al_index := 3; al_fraction := 100 |} = lit "100@3" /\
  allocation_to_data {| al_index := 3; al_fraction := 258 |} = [3; 0; 0; 0; 2; 1; 0; 0; 0; 0; 0; 0] /\
  allocation_from_str (lit "100@3") = Ok {| al_index := 3; al_fraction := 100 |} /\
  allocation_from_str (lit "18446744073709551616@3") = Err InvalidFraction /\
  allocation_from_str (lit "1@4294967296") = Err InvalidIndex /\
  allocation_from_str (lit "1@2@3") = Err InvalidIndex.
Proof. vm_compute. repeat split. Qed.

(** * C09: transports *)

Theorem C09_round_trip : forall t,
  match t with
  | JsonRpc _ h | RestHttp _ h | WebSockets _ h => h <> []
  | Storm => True
  | UnspecifiedMeans => False
  end -> transport_from_str (transport_display t) = Ok t.
Proof. exact transport_round_trip. Qed.
Print Assumptions C09_round_trip.

Theorem C09_parse_exact : forall s t, transport_from_str s = Ok t <->
  exists proto host, host <> [] /\ s = proto ++ lit "://" ++ host /\ In (proto, t) (protocols host).
Proof. exact transport_parse. Qed.
Print Assumptions C09_parse_exact.

Theorem C09_no_panic : forall s, transport_from_str s <> Panic.
Proof. exact transport_no_panic. Qed.
Print Assumptions C09_no_panic.

Example C09_ex :
  transport_display (JsonRpc true (lit "a://b")) = lit "rpcs://a://b" /\
  transport_from_str (lit "rpcs://a://b") = Ok (JsonRpc true (lit "a://b")) /\
  transport_from_str (lit "rpc://") = Err InvalidTransportHost /\
  transport_from_str (lit "ftp://x") = Err InvalidTransport.
Proof. vm_compute. auto. Qed.

(** * C10: invoice URI *)

(** The round trip holds, in both the plain and the alternate form, for the invoices described by
    [printable]. *)
Theorem C10_round_trip_partial : forall C alt i, codecs_ok C -> printable C i ->
  invoice_from_str C (invoice_display C alt i) = Ok i.
Proof. exact invoice_round_trip. Qed.
Print Assumptions C10_round_trip_partial.

Theorem C10_parse_never_panics : forall C s, invoice_from_str C s <> Panic.
Proof. exact invoice_parse_no_panic. Qed.
Print Assumptions C10_parse_never_panics.

Example C10_round_trip_ex : codecs_ok sample /\ printable sample sample_invoice /\
  invoice_display sample true sample_invoice = lit
   "rgb:c42/RGB20Fixed/18446744073709551615@7+sb:waebFcaFdaFcFBbRkbefaPdaCbRhGaekHcEZFaaaaaaaaaaaaaaaaaaa?expiry=-9223372036854775808&endpoints=rpcs://node.example:3000/rpc?x%3D1,storm://_/,ws://h&memo=a%20b%26c%3Dd%23e&=%5Bx%5D".
Proof. split; [exact sample_ok|]. split; [exact sample_invoice_printable|]. vm_compute. reflexivity. Qed.

(** Full property: refuted.  Each condition of [printable] that is not a typing condition is
    needed; the invoices below are well-typed. *)
Definition plain : RgbInvoice := builder_new (XBitcoinMainnet (BlindedSeal 1)).
Definition with_assignment := set_assignment (set_interface (set_contract plain 5) (lit "RGB20")) (lit "assetOwner").
Definition with_operation := set_operation (set_interface (set_contract plain 5) (lit "RGB20")) (lit "transfer").
Definition no_iface := set_contract plain 5.
Definition liquid : RgbInvoice := builder_new (XLiquidMainnet (BlindedSeal 1)).
Definition no_transports := add_transports_raw plain [].
Definition comma_host := add_transport_raw plain (JsonRpc false (lit "a,b")).
Definition query_key (k v : string) : RgbInvoice :=
  {| transports := [UnspecifiedMeans]; contract := None; iface := None; operation := None;
     assignment := None; beneficiary := XBitcoinMainnet (BlindedSeal 1); owned_state := ISVoid;
     expiry := None; unknown_query := [(lit k, lit v)] |}.

Lemma C10_refuting_well_typed :
  Forall (well_typed sample) [with_assignment; with_operation; no_iface; liquid; no_transports; comma_host;
     query_key "expiry" "7"; query_key "memo" "100%"; query_key "memo" "%41"; query_key "memo" "{x}"].
Proof.
  repeat apply Forall_cons; try apply Forall_nil;
    (constructor; cbn;
     [ repeat constructor | intros n H; try discriminate; injection H as <-; reflexivity
     | intros n H; try discriminate; injection H as <-; reflexivity
     | intros n H; try discriminate; injection H as <-; reflexivity
     | exact I | exact I | discriminate | repeat constructor; cbn; tauto | repeat constructor ]).
Qed.
Print Assumptions C10_refuting_well_typed.

Theorem C10_round_trip_refuted :
  let rt i := invoice_from_str sample (invoice_display sample false i) in
  ~ (forall C alt i, codecs_ok C -> well_typed C i -> invoice_from_str C (invoice_display C alt i) = Ok i) /\
  rt with_assignment = Err EBeneficiary /\
  rt with_operation = Err EBeneficiary /\
  rt no_iface = Err EContractIdNoIface /\
  rt liquid = Ok plain /\
  rt no_transports = Err EInvalidQueryParam /\
  rt comma_host = Err EInvalidQueryParam /\
  rt (query_key "expiry" "7") = Ok (set_expiry_timestamp plain 7) /\
  rt (query_key "memo" "100%") = Err EUri /\
  rt (query_key "memo" "%41") = Ok (query_key "memo" "A") /\
  rt (query_key "memo" "{x}") = Err EUri.
Proof.
  cbv zeta. split; [|vm_compute; repeat split].
  intros H. pose proof C10_refuting_well_typed as W. apply Forall_inv in W.
  specialize (H sample false _ sample_ok W). vm_compute in H. discriminate.
Qed.
Print Assumptions C10_round_trip_refuted.

(** Printing what was parsed is not always parseable again. *)
Theorem C10_reprint_refuted :
  ~ (forall C s i, codecs_ok C -> invoice_from_str C s = Ok i ->
       exists i', invoice_from_str C (invoice_display C false i) = Ok i').
Proof.
  intros H.
  assert (P : invoice_from_str sample (lit "rgb:~/~/bc:s-1?memo=100%25") = Ok (query_key "memo" "100%"))
    by (vm_compute; reflexivity).
  destruct (H sample _ _ sample_ok P) as [i' E]. clear H P. vm_compute in E. discriminate.
Qed.
Print Assumptions C10_reprint_refuted.

(** * C11: the builder *)

Theorem C11_failure_unchanged : forall i c i', builder_call i c = Failed i' -> i' = i.
Proof. exact builder_fails_unchanged. Qed.
Print Assumptions C11_failure_unchanged.

Theorem C11_failure_exact : forall i c, (exists i', builder_call i c = Failed i') <->
  match c with
  | CSetAmount n d p => 10 ^ decimals p <= d
  | CSetAmountApprox (F64Finite num _) _ => (num <= 0)%Z
  | CSetAmountApprox F64NegInfinity _ => True
  | CAddTransport s => forall t, ~ denotes_all [s] [t]
  | CAddTransports ss => forall ts, ~ denotes_all ss ts
  | _ => False
  end.
Proof. exact builder_fail_iff. Qed.
Print Assumptions C11_failure_exact.

(** A successful call sets what it is asked for and nothing else. *)
Theorem C11_fields : forall i c i', builder_call i c = Done i' ->
  contract i' = match asks_contract c with Some v => v | None => contract i end /\
  iface i' = match asks_iface c with Some v => v | None => iface i end /\
  operation i' = match asks_operation c with Some v => v | None => operation i end /\
  assignment i' = match asks_assignment c with Some v => v | None => assignment i end /\
  expiry i' = match asks_expiry c with Some v => v | None => expiry i end /\
  beneficiary i' = beneficiary i /\ unknown_query i' = unknown_query i.
Proof. exact builder_step. Qed.
Print Assumptions C11_fields.

Theorem C11_state : forall i c i', builder_call i c = Done i' ->
  exists o, asks_state c o /\ owned_state i' = match o with Some v => v | None => owned_state i end.
Proof. exact builder_state. Qed.
Print Assumptions C11_state.

(** The transports after any sequence of calls are the added ones, in order, or the placeholder
    if there was no adding call; provided the placeholder itself is not added. *)
Theorem C11_transports_partial : forall b cs, Forall (fun c => ~ raw_placeholder c) cs ->
  forall o, adds_seq cs o -> forall i, builder_run (builder_new b) cs = Some i ->
    transports i = match o with Some l => l | None => [UnspecifiedMeans] end /\
    match o with Some l => ~ In UnspecifiedMeans l | None => True end.
Proof. exact builder_transports. Qed.
Print Assumptions C11_transports_partial.

(** Every sequence of calls has such a description. *)
Theorem C11_transports_total : forall cs, exists o, adds_seq cs o.
Proof. exact adds_seq_total. Qed.
Print Assumptions C11_transports_total.

Theorem C11_sane_partial : forall b cs i, Forall (fun c => ~ raw_placeholder c) cs ->
  builder_run (builder_new b) cs = Some i ->
  transports i = [UnspecifiedMeans] \/ ~ In UnspecifiedMeans (transports i).
Proof. exact builder_list_sane. Qed.
Print Assumptions C11_sane_partial.

Example C11_ex :
  let cs := [CAddTransport (lit "bad"); CAddTransport (lit "rpc://x"); CSetAmount 1 100 Centi;
             CAddTransports [lit "ws://y"; lit "storm://z"]; CSetAmount 1 99 Centi] in
  Forall (fun c => ~ raw_placeholder c) cs /\
  exists i, builder_run plain cs = Some i /\
    transports i = [JsonRpc false (lit "x"); WebSockets false (lit "y"); Storm] /\
    owned_state i = ISAmount 199.
Proof.
  cbv zeta. split; [repeat constructor; cbn; auto|]. eexists. vm_compute. repeat split.
Qed.

(** Full property: refuted; adding the placeholder after another endpoint keeps both. *)
Theorem C11_sane_refuted :
  ~ (forall b cs i, builder_run (builder_new b) cs = Some i ->
       transports i = [UnspecifiedMeans] \/ ~ In UnspecifiedMeans (transports i)).
Proof.
  intros H. specialize (H (XBitcoinMainnet (BlindedSeal 1)) [CAddTransportRaw Storm; CAddTransportRaw UnspecifiedMeans] _ eq_refl).
  cbn in H. destruct H as [H|H]; [discriminate|]. apply H. right. left. reflexivity.
Qed.
Print Assumptions C11_sane_refuted.

(** Setting an amount which overflows panics instead of failing. *)
Theorem C11_no_panic_refuted :
  ~ (forall i c, builder_call i c <> Panicked).
Proof. intros H. apply (H plain (CSetAmount 18446744073709551615 0 Centi)). vm_compute. reflexivity. Qed.
Print Assumptions C11_no_panic_refuted.

(** The only calls which panic are those. *)
Theorem C11_panics : forall i c, builder_call i c = Panicked <->
  exists n p d, d < 10 ^ decimals p /\ 2 ^ 64 <= n * 10 ^ decimals p + d /\
    (c = CSetAmount n d p \/
     d = 0 /\ exists x, c = CSetAmountApprox x p /\
       (x = F64Infinity /\ n = 2 ^ 64 - 1 \/ exists num k, x = F64Finite num k /\ (0 < num)%Z /\ n = N.min (Z.to_N (num / 2 ^ Z.of_N k)) (2 ^ 64 - 1))).
Proof. exact builder_panics. Qed.
Print Assumptions C11_panics.

(** What a builder starts from: the beneficiary, the contract and interface asked for, nothing
    else; the invoice is what was built. *)
Theorem C11_start : forall c b,
  (forall i, i = builder_new b \/ i = builder_with c b \/ i = builder_rgb20 c b \/ i = builder_rgb20_anything b ->
     beneficiary i = b /\ transports i = [UnspecifiedMeans] /\ operation i = None /\ assignment i = None /\
     owned_state i = ISVoid /\ expiry i = None /\ unknown_query i = [] /\ finish i = i) /\
  contract (builder_new b) = None /\ iface (builder_new b) = None /\
  contract (builder_with c b) = Some c /\ iface (builder_with c b) = None /\
  contract (builder_rgb20 c b) = Some c /\ iface (builder_rgb20 c b) = Some (lit "RGB20") /\
  contract (builder_rgb20_anything b) = None /\ iface (builder_rgb20_anything b) = Some (lit "RGB20").
Proof.
  intros c b. split; [|repeat split]. intros i [->|[->|[->| ->]]]; repeat split.
Qed.
Print Assumptions C11_start.

(** * C53: approximate amounts *)

(** [set_amount_approx] sets the whole coins only: the fraction of the asked-for amount never
    reaches the invoice. *)
Theorem C53_approx_truncates : forall i num k p i', (0 < num)%Z ->
  builder_call i (CSetAmountApprox (F64Finite num k) p) = Done i' ->
  owned_state i' = ISAmount (N.min (Z.to_N (num / 2 ^ Z.of_N k)) (2 ^ 64 - 1) * 10 ^ decimals p).
Proof.
  intros i num k p i' H D. destruct (builder_state i _ i' D) as (o & A & E).
  inversion A; subst; [exact E|lia|contradiction].
Qed.
Print Assumptions C53_approx_truncates.

(** Full property (the amount set is within one unit of the one asked for): refuted, 12.5 coins
    with two decimals become 12.00. *)
Theorem C53_approx_close_refuted :
  ~ (forall i num k p i' a, (0 < num)%Z -> builder_call i (CSetAmountApprox (F64Finite num k) p) = Done i' ->
       owned_state i' = ISAmount a ->
       (num * 10 ^ Z.of_N (decimals p) <= (Z.of_N a + 1) * 2 ^ Z.of_N k)%Z).
Proof.
  intros H.
  assert (X : (25 * 10 ^ Z.of_N (decimals Centi) <= (Z.of_N 1200 + 1) * 2 ^ Z.of_N 1)%Z).
  { apply (H plain 25%Z 1 Centi (set_state plain (ISAmount 1200))); reflexivity. }
  vm_compute in X. congruence.
Qed.
Print Assumptions C53_approx_close_refuted.
(** What is no number is not refused: it sets the amount to zero. *)
Theorem C53_nan_refuted :
  ~ (forall i x p, (forall num k, x <> F64Finite num k) -> exists i', builder_call i (CSetAmountApprox x p) = Failed i').
Proof. intros H. destruct (H plain F64NaN Centi) as (i' & Hi); [discriminate|]. vm_compute in Hi. discriminate. Qed.
Print Assumptions C53_nan_refuted.
Theorem C53_special : forall i p,
  builder_call i (CSetAmountApprox F64NaN p) = Done (set_amount_raw i 0) /\
  builder_call i (CSetAmountApprox F64NegInfinity p) = Failed i /\
  builder_call i (CSetAmountApprox F64Infinity p) = (if decimals p =? 0 then Done (set_amount_raw i (2 ^ 64 - 1)) else Panicked).
Proof. intros i p. destruct p; repeat split. Qed.
Print Assumptions C53_special.
Example C53_ex : builder_call plain (CSetAmountApprox (F64Finite 25 1) Centi) = Done (set_amount_raw plain 1200).
Proof. vm_compute. reflexivity. Qed.
