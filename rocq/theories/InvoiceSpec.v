(** Specification vocabulary for invoices (C06-C11). *)
From Coq Require Import Ascii String.
From Verif Require Import Base Str AmountModel AmountSpec InvoiceModel.
Local Open Scope N_scope.

(** A text that [u64]/[u32]'s [from_str] reads as [n]: digits with an optional plus sign. *)
Definition number (bound : N) (s : str) (n : N) : Prop :=
  n < bound /\ exists ds, decimal ds n /\ (s = ds \/ s = "+"%char :: ds).

Definition byte (b : N) : Prop := b < 256.
Definition bytes (k : N) (l : list N) : Prop := len l = k /\ Forall byte l.

(** A well-typed pay-to-vout beneficiary: hashes are fixed-size arrays, keys are valid. *)
Definition address_ok (C : Codecs) (a : AddressPayload) : Prop :=
  match a with
  | Pkh h | Sh h | Wpkh h => bytes 20 h
  | Wsh h => bytes 32 h
  | Tr k => bytes 32 k /\ tapkey_ok C k = true
  end.
Definition beneficiary_ok (C : Codecs) (b : Beneficiary) : Prop :=
  match b with BlindedSeal _ => True | WitnessVout p => address_ok C (p2v_address p) end.

(** The endpoint texts: protocol names and what they denote. *)
Definition protocols (host : str) : list (str * RgbTransport) :=
  [ (lit "rpc", JsonRpc false host); (lit "rpcs", JsonRpc true host);
    (lit "http", RestHttp false host); (lit "https", RestHttp true host);
    (lit "ws", WebSockets false host); (lit "wss", WebSockets true host);
    (lit "storm", Storm) ].

(** Characters the identifiers' text forms use. *)
Definition id_letters : str :=
  lit "ABCDEFGHIJKLMNOPQRSTUVWXYZabcdefghijklmnopqrstuvwxyz0123456789-_~!$.:".
Definition id_text (s : str) : Prop := Forall (fun c => In c id_letters) s.
(** A text with the dashes removed. *)
Definition undashed (s : str) : str := filter (fun c => negb (Ascii.eqb c "-"%char)) s.

(** What is assumed about the identifier codecs of the other crates: they are inverse to
    their printers (also once the dashes, which baid64 uses for grouping only, are removed),
    use the letters above, and the forms of the different identifiers do not overlap. *)
Record codecs_ok (C : Codecs) : Prop := {
  ok_cid : forall i, cid_parse C (cid_body C i) = Some i;
  ok_cid_undashed : forall i, cid_parse C (undashed (cid_body C i)) = Some i;
  ok_cid_text : forall i, id_text (cid_body C i);
  ok_cid_omitted : cid_parse C (lit "~") = None;
  ok_cid_nonempty : cid_parse C [] = None;
  ok_seal : forall i, seal_parse C (seal_print C i) = Some i;
  ok_seal_undashed : forall i, seal_parse C (undashed (seal_print C i)) = Some i;
  ok_seal_text : forall i, id_text (seal_print C i);
  ok_attach : forall i, attach_parse C (attach_print C i) = Some i;
  ok_attach_text : forall i, id_text (attach_print C i);
  ok_attach_not_amount : forall i, Exists (fun c => ~ In c amount_letters) (attach_print C i);
  ok_baid : forall l, bytes 34 l -> baid_parse C (baid_print C l) = Some l;
  ok_baid_undashed : forall l, bytes 34 l -> baid_parse C (undashed (baid_print C l)) = Some l;
  ok_baid_text : forall l, bytes 34 l -> id_text (baid_print C l);
  ok_baid_not_seal : forall l, bytes 34 l -> seal_parse C (baid_print C l) = None;
  ok_baid_not_seal_undashed : forall l, bytes 34 l -> seal_parse C (undashed (baid_print C l)) = None;
  ok_typename_text : forall s, typename_ok C s = true -> id_text s;
  ok_typename_omitted : typename_ok C (lit "~") = false;
  ok_utf8_ascii : forall s, Forall (fun c => N_of_ascii c < 128) s -> utf8 C s = true;
  ok_utf8_app : forall s t, utf8 C s = true -> utf8 C t = true -> utf8 C (s ++ t) = true
}.

(** Characters which a URI query may not contain but the printer does not escape. *)
Definition query_safe (c : ascii) : Prop := ~ In c (lit "%\^`{|}").
Definition query_text_ok (C : Codecs) (s : str) : Prop :=
  Forall query_safe s /\ utf8 C s = true.

Definition endpoint_ok (C : Codecs) (t : RgbTransport) : Prop :=
  match t with
  | JsonRpc _ h | RestHttp _ h | WebSockets _ h =>
      h <> [] /\ ~ In ","%char h /\ query_text_ok C h
  | Storm => True
  | UnspecifiedMeans => False
  end.

Definition state_ok (st : InvoiceState) : Prop :=
  match st with
  | ISVoid | ISAttach _ => True
  | ISAmount a => u64 a
  | ISData a => al_index a < 2 ^ 32 /\ u64 (al_fraction a)
  end.

Definition i64 (z : Z) : Prop := (- 2 ^ 63 <= z < 2 ^ 63)%Z.

(** The invoices for which the URI form is faithful.  Everything excluded here besides the
    typing conditions is shown not to round-trip. *)
Record printable (C : Codecs) (i : RgbInvoice) : Prop := {
  pr_transports : transports i = [UnspecifiedMeans] \/
                  (transports i <> [] /\ Forall (endpoint_ok C) (transports i));
  pr_contract : contract i <> None -> iface i <> None;
  pr_iface : forall n, iface i = Some n -> typename_ok C n = true;
  pr_operation : operation i = None;
  pr_assignment : assignment i = None;
  pr_network : chain_network (beneficiary i) <> LiquidMainnet;
  pr_beneficiary : beneficiary_ok C (xcn_into_inner (beneficiary i));
  pr_state : state_ok (owned_state i);
  pr_expiry : forall e, expiry i = Some e -> i64 e;
  pr_query_keys : NoDup (map fst (unknown_query i));
  pr_query_reserved : ~ In (lit "expiry") (map fst (unknown_query i)) /\
                      ~ In (lit "endpoints") (map fst (unknown_query i));
  pr_query : Forall (fun p => query_text_ok C (fst p) /\ query_text_ok C (snd p)) (unknown_query i)
}.

(** What each builder call asks for. *)
Definition asks_contract (c : BuilderCall) : option (option N) :=
  match c with CSetContract c => Some (Some c) | _ => None end.
Definition asks_iface (c : BuilderCall) : option (option str) :=
  match c with CSetInterface n => Some (Some n) | _ => None end.
Definition asks_operation (c : BuilderCall) : option (option str) :=
  match c with CSetOperation n => Some (Some n) | _ => None end.
Definition asks_assignment (c : BuilderCall) : option (option str) :=
  match c with CSetAssignment n => Some (Some n) | _ => None end.
Definition asks_expiry (c : BuilderCall) : option (option Z) :=
  match c with CSetExpiry e => Some (Some e) | _ => None end.
(** Endpoints of a list of texts; all must denote one. *)
Inductive denotes_all : list str -> list RgbTransport -> Prop :=
| da_nil : denotes_all [] []
| da_cons proto host t ss ts : host <> [] -> In (proto, t) (protocols host) -> denotes_all ss ts ->
    denotes_all ((proto ++ lit "://" ++ host) :: ss) (t :: ts).
(** The endpoints a call adds; [None] if it is not a (valid) transport call. *)
Inductive adds : BuilderCall -> option (list RgbTransport) -> Prop :=
| ad_one s t : denotes_all [s] [t] -> adds (CAddTransport s) (Some [t])
| ad_one_bad s : (forall t, ~ denotes_all [s] [t]) -> adds (CAddTransport s) None
| ad_raw t : adds (CAddTransportRaw t) (Some [t])
| ad_many ss ts : denotes_all ss ts -> adds (CAddTransports ss) (Some ts)
| ad_many_bad ss : (forall ts, ~ denotes_all ss ts) -> adds (CAddTransports ss) None
| ad_many_raw ts : adds (CAddTransportsRaw ts) (Some ts)
| ad_other c : (match c with CAddTransport _ | CAddTransportRaw _ | CAddTransports _
                        | CAddTransportsRaw _ => False | _ => True end) -> adds c None.
(** Endpoints added by a sequence of calls, in order; [None] if there was no adding call. *)
Inductive adds_seq : list BuilderCall -> option (list RgbTransport) -> Prop :=
| as_nil : adds_seq [] None
| as_skip cs c o : adds_seq cs o -> adds c None -> adds_seq (cs ++ [c]) o
| as_first cs c l : adds_seq cs None -> adds c (Some l) -> adds_seq (cs ++ [c]) (Some l)
| as_more cs c l l' : adds_seq cs (Some l) -> adds c (Some l') ->
    adds_seq (cs ++ [c]) (Some (l ++ l')).
Definition raw_placeholder (c : BuilderCall) : Prop :=
  match c with
  | CAddTransportRaw t => t = UnspecifiedMeans
  | CAddTransportsRaw ts => In UnspecifiedMeans ts
  | _ => False
  end.
(** The state a call asks for: [Some] value it sets on success. *)
Inductive asks_state : BuilderCall -> option InvoiceState -> Prop :=
| ask_amount_raw a : asks_state (CSetAmountRaw a) (Some (ISAmount a))
| ask_alloc_raw a : asks_state (CSetAllocationRaw a) (Some (ISData a))
| ask_alloc i f : asks_state (CSetAllocation i f) (Some (ISData {| al_index := i; al_fraction := f |}))
| ask_amount i f p : f < 10 ^ decimals p ->
    asks_state (CSetAmount i f p) (Some (ISAmount (i * 10 ^ decimals p + f)))
| ask_amount_bad i f p : 10 ^ decimals p <= f -> asks_state (CSetAmount i f p) None
| ask_approx num k p : (0 < num)%Z ->
    asks_state (CSetAmountApprox (F64Finite num k) p)
      (Some (ISAmount (N.min (Z.to_N (num / 2 ^ Z.of_N k)) (2 ^ 64 - 1) * 10 ^ decimals p)))
| ask_approx_bad num k p : (num <= 0)%Z -> asks_state (CSetAmountApprox (F64Finite num k) p) None
| ask_approx_infinity p : asks_state (CSetAmountApprox F64Infinity p) (Some (ISAmount ((2 ^ 64 - 1) * 10 ^ decimals p)))
| ask_approx_neg p : asks_state (CSetAmountApprox F64NegInfinity p) None
| ask_approx_nan p : asks_state (CSetAmountApprox F64NaN p) (Some (ISAmount 0))
| ask_other c : (match c with CSetAmountRaw _ | CSetAllocationRaw _ | CSetAllocation _ _
                         | CSetAmount _ _ _ | CSetAmountApprox _ _ => False | _ => True end) ->
    asks_state c None.

(** The invoices the types allow: everything a caller can construct. *)
Record well_typed (C : Codecs) (i : RgbInvoice) : Prop := {
  wt_hosts : Forall (fun t => match t with
                              | JsonRpc _ h | RestHttp _ h | WebSockets _ h => utf8 C h = true
                              | _ => True end) (transports i);
  wt_iface : forall n, iface i = Some n -> typename_ok C n = true;
  wt_operation : forall n, operation i = Some n -> typename_ok C n = true;
  wt_assignment : forall n, assignment i = Some n -> typename_ok C n = true;
  wt_beneficiary : beneficiary_ok C (xcn_into_inner (beneficiary i));
  wt_state : state_ok (owned_state i);
  wt_expiry : forall e, expiry i = Some e -> i64 e;
  wt_query_keys : NoDup (map fst (unknown_query i));
  wt_query : Forall (fun p => utf8 C (fst p) = true /\ utf8 C (snd p) = true) (unknown_query i)
}.
