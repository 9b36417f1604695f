(** Model of invoice/src/{invoice,parse,data,builder}.rs. *)
From Coq Require Import Ascii String.
From Verif Require Import Base Str AmountModel.
From Verif Require Export Core.
Local Open Scope N_scope.

(** ** Codecs of other crates

    Text forms of identifiers (baid64), the validity of type names and of taproot keys, and
    UTF-8 well-formedness belong to other crates; they are explicit arguments of the model. *)
Record Codecs := {
  cid_body : N -> str;            (* ContractId::to_string without the "rgb:" prefix *)
  cid_parse : str -> option N;    (* ContractId::from_str *)
  seal_print : N -> str;          (* SecretSeal::to_string *)
  seal_parse : str -> option N;   (* SecretSeal::from_str *)
  attach_print : N -> str;        (* AttachId::to_string *)
  attach_parse : str -> option N; (* AttachId::from_str *)
  baid_print : list N -> str;     (* fmt_baid64 of a 34-byte payload *)
  baid_parse : str -> option (list N); (* decoding of a baid64 string into 34 bytes *)
  typename_ok : str -> bool;      (* TypeName::try_from succeeds *)
  tapkey_ok : list N -> bool;     (* OutputPk::from_byte_array succeeds *)
  utf8 : str -> bool              (* the bytes are valid UTF-8 *)
}.

(** ** Transports, invoice.rs 36-42 *)
Inductive RgbTransport :=
| JsonRpc (tls : bool) (host : str)
| RestHttp (tls : bool) (host : str)
| WebSockets (tls : bool) (host : str)
| Storm
| UnspecifiedMeans.

Inductive TransportParseError := InvalidTransport | InvalidTransportHost.

(** parse.rs 44 *)
Definition TRANSPORT_HOST_SEP : str := lit "://".
(** parse.rs 40-43 *)
Definition OMITTED : str := lit "~".
Definition EXPIRY : str := lit "expiry".
Definition ENDPOINTS : str := lit "endpoints".
Definition TRANSPORT_SEP : ascii := ","%char.

(** parse.rs 161-183 *)
Definition transport_display (t : RgbTransport) : str :=
  match t with
  | JsonRpc tls host => lit "rpc" ++ (if tls then lit "s" else []) ++ TRANSPORT_HOST_SEP ++ host
  | RestHttp tls host => lit "http" ++ (if tls then lit "s" else []) ++ TRANSPORT_HOST_SEP ++ host
  | WebSockets tls host => lit "ws" ++ (if tls then lit "s" else []) ++ TRANSPORT_HOST_SEP ++ host
  | Storm => lit "storm" ++ TRANSPORT_HOST_SEP ++ lit "_/"
  | UnspecifiedMeans => []
  end.

(** parse.rs 185-210; the offending string carried by the errors is left out *)
Definition transport_from_str (s : str) : result TransportParseError RgbTransport :=
  match split_once_str TRANSPORT_HOST_SEP s with
  | None => Err InvalidTransport
  | Some (ty, host) =>
      match host with
      | [] => Err InvalidTransportHost
      | _ =>
          if streqb ty (lit "rpc") then Ok (JsonRpc false host)
          else if streqb ty (lit "rpcs") then Ok (JsonRpc true host)
          else if streqb ty (lit "http") then Ok (RestHttp false host)
          else if streqb ty (lit "https") then Ok (RestHttp true host)
          else if streqb ty (lit "ws") then Ok (WebSockets false host)
          else if streqb ty (lit "wss") then Ok (WebSockets true host)
          else if streqb ty (lit "storm") then Ok Storm
          else Err InvalidTransport
      end
  end.

Definition transport_eqb (a b : RgbTransport) : bool :=
  match a, b with
  | JsonRpc t h, JsonRpc t' h' => Bool.eqb t t' && streqb h h'
  | RestHttp t h, RestHttp t' h' => Bool.eqb t t' && streqb h h'
  | WebSockets t h, WebSockets t' h' => Bool.eqb t t' && streqb h h'
  | Storm, Storm => true
  | UnspecifiedMeans, UnspecifiedMeans => true
  | _, _ => false
  end.

(** ** Allocations, data.rs 139-201 *)
Record Allocation := { al_index : N (* u32 *); al_fraction : N (* u64 *) }.

Inductive AllocationParseError := InvalidIndex | InvalidFraction | WrongFormat.

(** data.rs 140: [display("{1}@{0}")] *)
Definition allocation_display (a : Allocation) : str :=
  dec_print (al_fraction a) ++ "@"%char :: dec_print (al_index a).

(** data.rs 181-201 *)
Definition allocation_from_str (s : str) : result AllocationParseError Allocation :=
  match split_once "@"%char s with
  | None => Err WrongFormat
  | Some (fraction, index) =>
      let! i := ok_or InvalidIndex (parse_uint U32MAX index) in
      let! f := ok_or InvalidFraction (parse_uint U64MAX fraction) in
      Ok {| al_index := i; al_fraction := f |}
  end.

(** data.rs 143-152 ([with], [token_index], [fraction]) *)
Definition allocation_with (index fraction : N) : Allocation := {| al_index := index; al_fraction := fraction |}.
Definition token_index (a : Allocation) : N := al_index a.
Definition fraction (a : Allocation) : N := al_fraction a.

(** data.rs 154-179: an allocation as data of a contract.  The strict encoding (derived, crate
    strict_encoding) is that of the fields, numbers with the least byte first; data with bytes
    left over is not decoded.  What cannot be decoded is a panic ([expect]). *)
Definition allocation_to_data (a : Allocation) : list N := to_le_bytes 4 (al_index a) ++ to_le_bytes 8 (al_fraction a).
Definition allocation_from_data {E} (d : list N) : result E Allocation :=
  if len d =? 12 then Ok {| al_index := from_le_bytes (firstn 4 d); al_fraction := from_le_bytes (skipn 4 d) |} else Panic.

(** ** Invoice state, invoice.rs 52-79.  [NonFungible] (data.rs 38-49) has the single variant
    [RGB21], hence [ISData]. *)
Inductive InvoiceState :=
| ISVoid
| ISAmount (a : Amount)
| ISData (a : Allocation)
| ISAttach (id : N).

(** invoice.rs 52-62 *)
Definition state_display (C : Codecs) (st : InvoiceState) : str :=
  match st with
  | ISVoid => []
  | ISAmount a => amount_display a
  | ISData a => allocation_display a
  | ISAttach i => attach_print C i
  end.

(** invoice.rs 64-79 *)
Definition state_from_str (C : Codecs) (s : str) : option InvoiceState :=
  match s with
  | [] => Some ISVoid
  | _ =>
      match amount_from_str s with
      | Ok a => Some (ISAmount a)
      | _ => match allocation_from_str s with
             | Ok a => Some (ISData a)
             | _ => match attach_parse C s with
                    | Some i => Some (ISAttach i)
                    | None => None
                    end
             end
      end
  end.

(** ** Chains and networks, invoice.rs 81-189 *)
Inductive ChainNet :=
| BitcoinMainnet | BitcoinTestnet | BitcoinSignet | BitcoinRegtest | LiquidMainnet | LiquidTestnet.

Inductive AddressNetwork := AddrMainnet | AddrTestnet | AddrRegtest.

(** invoice.rs 84-95: the [display] attributes *)
Definition chainnet_display (n : ChainNet) : str :=
  match n with
  | BitcoinMainnet => lit "bc"
  | BitcoinTestnet => lit "tb"
  | BitcoinSignet => lit "sb"
  | BitcoinRegtest => lit "bcrt"
  | LiquidMainnet => lit "lq"
  | LiquidTestnet => lit "tl"
  end.

(** invoice.rs 99-107 *)
Definition layer1 (n : ChainNet) : Layer1 :=
  match n with
  | BitcoinMainnet | BitcoinTestnet | BitcoinSignet | BitcoinRegtest => Bitcoin
  | LiquidMainnet | LiquidTestnet => Liquid
  end.
(** invoice.rs 109-118 *)
Definition is_prod (n : ChainNet) : bool :=
  match n with
  | BitcoinMainnet | LiquidMainnet => true
  | BitcoinTestnet | BitcoinSignet | BitcoinRegtest | LiquidTestnet => false
  end.
(** invoice.rs 120-128 *)
Definition address_network (n : ChainNet) : AddressNetwork :=
  match n with
  | BitcoinMainnet => AddrMainnet
  | BitcoinTestnet | BitcoinSignet => AddrTestnet
  | BitcoinRegtest => AddrRegtest
  | LiquidMainnet => AddrMainnet
  | LiquidTestnet => AddrTestnet
  end.

(** parse.rs 222-236, in the order of the match arms.  [to_lowercase] is modelled on ASCII. *)
Definition chainnet_from_str (s : str) : option ChainNet :=
  let x := map ascii_lower s in
  if streqb (chainnet_display BitcoinMainnet) x then Some BitcoinMainnet
  else if streqb (chainnet_display BitcoinTestnet) x then Some BitcoinTestnet
  else if streqb (chainnet_display BitcoinSignet) x then Some BitcoinSignet
  else if streqb (chainnet_display BitcoinRegtest) x then Some BitcoinRegtest
  else if streqb (chainnet_display LiquidMainnet) x then Some BitcoinMainnet
  else if streqb (chainnet_display LiquidTestnet) x then Some LiquidTestnet
  else None.

(** invoice.rs 131-140 *)
Inductive XChainNet (T : Type) :=
| XBitcoinMainnet (t : T) | XBitcoinTestnet (t : T) | XBitcoinSignet (t : T)
| XBitcoinRegtest (t : T) | XLiquidMainnet (t : T) | XLiquidTestnet (t : T).
Arguments XBitcoinMainnet {T} t.
Arguments XBitcoinTestnet {T} t.
Arguments XBitcoinSignet {T} t.
Arguments XBitcoinRegtest {T} t.
Arguments XLiquidMainnet {T} t.
Arguments XLiquidTestnet {T} t.

(** invoice.rs 143-152 *)
Definition xcn_with {T} (cn : ChainNet) (t : T) : XChainNet T :=
  match cn with
  | BitcoinMainnet => XBitcoinMainnet t
  | BitcoinTestnet => XBitcoinTestnet t
  | BitcoinSignet => XBitcoinSignet t
  | BitcoinRegtest => XBitcoinRegtest t
  | LiquidMainnet => XLiquidMainnet t
  | LiquidTestnet => XLiquidTestnet t
  end.
Inductive Network := NetMainnet | NetTestnet3 | NetTestnet4 | NetSignet | NetRegtest.
(** invoice.rs 154-162 *)
Definition xcn_bitcoin {T} (n : Network) (t : T) : XChainNet T :=
  match n with
  | NetMainnet => XBitcoinMainnet t
  | NetTestnet3 => XBitcoinTestnet t
  | NetTestnet4 => XBitcoinTestnet t
  | NetSignet => XBitcoinSignet t
  | NetRegtest => XBitcoinRegtest t
  end.
(** invoice.rs 164-173 *)
Definition chain_network {T} (x : XChainNet T) : ChainNet :=
  match x with
  | XBitcoinMainnet _ => BitcoinMainnet
  | XBitcoinTestnet _ => BitcoinTestnet
  | XBitcoinSignet _ => BitcoinSignet
  | XBitcoinRegtest _ => BitcoinRegtest
  | XLiquidMainnet _ => LiquidMainnet
  | XLiquidTestnet _ => LiquidTestnet
  end.
(** invoice.rs 175-184 *)
Definition xcn_into_inner {T} (x : XChainNet T) : T :=
  match x with
  | XBitcoinMainnet t | XBitcoinTestnet t | XBitcoinSignet t
  | XBitcoinRegtest t | XLiquidMainnet t | XLiquidTestnet t => t
  end.

(** ** Pay-to-vout beneficiaries *)
(** [CloseMethod as u8] / [try_from(u8)] of the bp-core crate *)
Definition method_byte (m : CloseMethod) : N := match m with OpretFirst => 0 | TapretFirst => 1 end.
Definition method_of_byte (b : N) : option CloseMethod :=
  match b with 0 => Some OpretFirst | 1 => Some TapretFirst | _ => None end.

(** [AddressPayload] of the bp crate; hashes are byte lists *)
Inductive AddressPayload :=
| Pkh (h : list N) | Sh (h : list N) | Wpkh (h : list N) | Wsh (h : list N) | Tr (k : list N).

(** invoice.rs 202-206 *)
Record Pay2Vout := { p2v_method : CloseMethod; p2v_address : AddressPayload }.

Inductive Pay2VoutError := InvalidMethod (b : N) | InvalidAddressType (b : N) | InvalidTapkey.

(** invoice.rs 209-213 *)
Definition P2PKH : N := 1.
Definition P2SH : N := 2.
Definition P2WPKH : N := 3.
Definition P2WSH : N := 4.
Definition P2TR : N := 5.

(** parse.rs 245-265: a zeroed 34-byte array with the script written from offset 2;
    [write_all] fails (panics) if the script is longer than 32 bytes *)
Definition p2v_payload {E} (p : Pay2Vout) : result E (list N) :=
  let '(addr_type, spk) := match p2v_address p with
                           | Pkh h => (P2PKH, h)
                           | Sh h => (P2SH, h)
                           | Wpkh h => (P2WPKH, h)
                           | Wsh h => (P2WSH, h)
                           | Tr k => (P2TR, k)
                           end in
  if 32 <? len spk then Panic else
  Ok (method_byte (p2v_method p) :: addr_type :: spk ++ repeat 0 (32 - length spk)).

(** [data[a..b]] *)
Definition slice (a b : nat) (l : list N) : list N := firstn (b - a) (skipn a l).

(** invoice.rs 216-235 *)
Definition p2v_try_from (C : Codecs) (data : list N) : result Pay2VoutError Pay2Vout :=
  let! m := ok_or (InvalidMethod (nth 0 data 0)) (method_of_byte (nth 0 data 0)) in
  let t := nth 1 data 0 in
  let! a :=
    if t =? P2PKH then Ok (Pkh (slice 2 22 data))
    else if t =? P2SH then Ok (Sh (slice 2 22 data))
    else if t =? P2WPKH then Ok (Wpkh (slice 2 22 data))
    else if t =? P2WSH then Ok (Wsh (slice 2 34 data))
    else if t =? P2TR then
      if tapkey_ok C (slice 2 34 data) then Ok (Tr (slice 2 34 data)) else Err InvalidTapkey
    else Err (InvalidAddressType t) in
  Ok {| p2v_method := m; p2v_address := a |}.

(** invoice.rs 237-243 *)
Inductive Beneficiary := BlindedSeal (s : N) | WitnessVout (p : Pay2Vout).

(** parse.rs 212-220; the panic of the payload encoder is excluded by typing there
    (hashes are fixed-size arrays), here it prints nothing *)
Definition beneficiary_display (C : Codecs) (b : XChainNet Beneficiary) : str :=
  chainnet_display (chain_network b) ++ ":"%char ::
  match xcn_into_inner b with
  | BlindedSeal s => seal_print C s
  | WitnessVout p => match @p2v_payload unit p with Ok l => baid_print C l | _ => [] end
  end.

Inductive InvoiceParseError :=
| EUri | EInvalid | EAuthority | EContractMissed | EIfaceMissed | EAssignmentMissed
| EInvalidScheme | EContractIdNoIface | EInvalidContractId | EInvalidIface
| EInvalidExpiration | EInvalidQueryParam | EId | EBeneficiary | EData.

(** parse.rs 277-292; [Pay2Vout::from_str] is baid64 decoding followed by [try_from] *)
Definition beneficiary_from_str (C : Codecs) (s : str)
  : result InvoiceParseError (XChainNet Beneficiary) :=
  match split_once ":"%char s with
  | None => Err EBeneficiary
  | Some (cn, b) =>
      let! cn := ok_or EBeneficiary (chainnet_from_str cn) in
      match seal_parse C b with
      | Some seal => Ok (xcn_with cn (BlindedSeal seal))
      | None =>
          match baid_parse C b with
          | None => Err EId
          | Some data =>
              let! p := rmap_err (fun _ => EId) (p2v_try_from C data) in
              Ok (xcn_with cn (WitnessVout p))
          end
      end
  end.

(** ** The invoice, invoice.rs 245-258 *)
Record RgbInvoice := {
  transports : list RgbTransport;
  contract : option N;
  iface : option str;
  operation : option str;
  assignment : option str;
  beneficiary : XChainNet Beneficiary;
  owned_state : InvoiceState;
  expiry : option Z;
  unknown_query : list (str * str)  (* IndexMap: insertion order, unique keys *)
}.

(** [IndexMap::insert]: replaces the value in place or appends *)
Fixpoint imap_insert (k v : str) (m : list (str * str)) : list (str * str) :=
  match m with
  | [] => [(k, v)]
  | (k', v') :: m' => if streqb k k' then (k', v) :: m' else (k', v') :: imap_insert k v m'
  end.
Definition imap_extend (m l : list (str * str)) : list (str * str) :=
  fold_left (fun m p => imap_insert (fst p) (snd p) m) l m.
(** [IndexMap::shift_remove] *)
Fixpoint imap_remove (k : str) (m : list (str * str)) : option str * list (str * str) :=
  match m with
  | [] => (None, [])
  | (k', v') :: m' => if streqb k k' then (Some v', m')
                      else let '(r, m'') := imap_remove k m' in (r, (k', v') :: m'')
  end.

(** [i64::to_string] and [i64::from_str] *)
Definition i64_print (z : Z) : str :=
  if (z <? 0)%Z then "-"%char :: dec_print (Z.to_N (- z)) else dec_print (Z.to_N z).
Definition i64_parse (s : str) : option Z :=
  let unsigned r := match r with [] => None | _ => dec_value r end in
  match s with
  | c :: r =>
      if is_char c "-"%char then
        match unsigned r with
        | Some n => if n <=? 9223372036854775808 then Some (- Z.of_N n)%Z else None
        | None => None
        end
      else
        match unsigned (if is_char c "+"%char then r else s) with
        | Some n => if n <=? 9223372036854775807 then Some (Z.of_N n) else None
        | None => None
        end
  | [] => None
  end.

Definition is_sole_unspecified (l : list RgbTransport) : bool :=
  match l with [UnspecifiedMeans] => true | _ => false end.

(** parse.rs 138-142 *)
Definition has_params (i : RgbInvoice) : bool :=
  match expiry i with Some _ => true | None => false end
  || negb (is_sole_unspecified (transports i))
  || negb (match unknown_query i with [] => true | _ => false end).

(** parse.rs 144-158 *)
Definition query_params (i : RgbInvoice) : list (str * str) :=
  let m := match expiry i with Some e => imap_insert EXPIRY (i64_print e) [] | None => [] end in
  let m := if is_sole_unspecified (transports i) then m
           else imap_insert ENDPOINTS (join [TRANSPORT_SEP] (map transport_display (transports i))) m in
  imap_extend m (unknown_query i).

(** Percent encoding with the set of parse.rs 45-54 (CONTROLS plus the listed characters);
    bytes outside of ASCII are always encoded *)
Definition in_query_encode (c : ascii) : bool :=
  let n := N_of_ascii c in
  (n <? 32) || (n =? 127) || (128 <=? n) || existsb (is_char c) (lit " ""#<>[]&=").
Definition hex_digit (d : N) : ascii :=
  if d <? 10 then ascii_of_N (48 + d) else ascii_of_N (55 + d).
Definition hex_value (c : ascii) : option N :=
  let n := N_of_ascii c in
  if (48 <=? n) && (n <=? 57) then Some (n - 48)
  else if (65 <=? n) && (n <=? 70) then Some (n - 55)
  else if (97 <=? n) && (n <=? 102) then Some (n - 87)
  else None.
Definition encode_char (c : ascii) : str :=
  if in_query_encode c
  then ["%"%char; hex_digit (N_of_ascii c / 16); hex_digit (N_of_ascii c mod 16)]
  else [c].
Definition percent_encode (s : str) : str := flat_map encode_char s.

Definition nodash (s : str) : str := filter (fun c => negb (is_char c "-"%char)) s.

(** parse.rs 330-346: parameters joined with '&' *)
Definition query_text (m : list (str * str)) : str :=
  join (lit "&") (map (fun p => percent_encode (fst p) ++ "="%char :: percent_encode (snd p)) m).

(** parse.rs 294-349; [alt] is the alternate flag *)
Definition invoice_display (C : Codecs) (alt : bool) (i : RgbInvoice) : str :=
  let amt := state_display C (owned_state i) in
  let dash s := if alt then nodash s else s in
  (match contract i with
   | Some c => dash (lit "rgb:" ++ cid_body C c) ++ lit "/"
   | None => lit "rgb:" ++ OMITTED ++ lit "/"
   end) ++
  (match iface i with Some n => n ++ lit "/" | None => OMITTED ++ lit "/" end) ++
  (match operation i with Some n => n ++ lit "/" | None => [] end) ++
  (match assignment i with Some n => n ++ lit "/" | None => [] end) ++
  (match amt with [] => [] | _ => amt ++ lit "+" end) ++
  dash (beneficiary_display C (beneficiary i)) ++
  (if has_params i then lit "?" else []) ++
  query_text (query_params i).

(** ** URI parsing (external crate [fluent_uri]), RFC 3986 *)
Definition is_alpha (c : ascii) : bool :=
  let n := N_of_ascii c in ((65 <=? n) && (n <=? 90)) || ((97 <=? n) && (n <=? 122)).
Definition is_unreserved (c : ascii) : bool :=
  is_alpha c || is_digit c || existsb (is_char c) (lit "-._~").
Definition is_sub_delim (c : ascii) : bool := existsb (is_char c) (lit "!$&'()*+,;=").
Definition is_pchar (c : ascii) : bool :=
  is_unreserved c || is_sub_delim c || is_char c ":"%char || is_char c "@"%char.
Definition is_path_char (c : ascii) : bool := is_pchar c || is_char c "/"%char.
Definition is_query_char (c : ascii) : bool := is_path_char c || is_char c "?"%char.

(** All characters allowed, and every '%' starts a two-digit hexadecimal escape *)
Fixpoint uri_chars_ok (ok : ascii -> bool) (s : str) : bool :=
  match s with
  | [] => true
  | c :: s' =>
      if is_char c "%"%char then
        match s' with
        | h :: l :: r => match hex_value h, hex_value l with
                         | Some _, Some _ => uri_chars_ok ok r
                         | _, _ => false
                         end
        | _ => false
        end
      else ok c && uri_chars_ok ok s'
  end.

Definition scheme_ok (s : str) : bool :=
  match s with
  | [] => false
  | c :: r => is_alpha c &&
              forallb (fun c => is_alpha c || is_digit c || existsb (is_char c) (lit "+-.")) r
  end.

Record Uri := {
  uri_scheme : option str;
  uri_authority : bool;
  uri_path : str;
  uri_query : option str
}.

(** [Uri::parse].  A string without a scheme is reported as such when it could be a relative
    reference; the parser of the invoice fails on both. *)
Definition uri_parse (s : str) : result InvoiceParseError Uri :=
  let '(s, frag) := match split_once "#"%char s with
                    | Some (a, b) => (a, Some b) | None => (s, None) end in
  let '(s, query) := match split_once "?"%char s with
                     | Some (a, b) => (a, Some b) | None => (s, None) end in
  let opt_ok o := match o with Some q => uri_chars_ok is_query_char q | None => true end in
  if negb (opt_ok frag && opt_ok query && uri_chars_ok is_path_char s) then Err EUri else
  match split_once ":"%char s with
  | Some (sch, rest) =>
      if scheme_ok sch then
        Ok {| uri_scheme := Some sch;
              uri_authority := match strip_prefix (lit "//") rest with Some _ => true | None => false end;
              uri_path := rest; uri_query := query |}
      else Err EUri
  | None => Ok {| uri_scheme := None; uri_authority := false; uri_path := s; uri_query := query |}
  end.

(** Decoding of percent escapes ([EStr::decode]) *)
Fixpoint pct_decode (s : str) : str :=
  match s with
  | [] => []
  | c :: s' =>
      if is_char c "%"%char then
        match s' with
        | h :: l :: r => match hex_value h, hex_value l with
                         | Some a, Some b => ascii_of_N (16 * a + b) :: pct_decode r
                         | _, _ => c :: pct_decode s'
                         end
        | _ => c :: pct_decode s'
        end
      else c :: pct_decode s'
  end.

(** parse.rs 449-455 *)
Definition percent_decode (C : Codecs) (s : str) : result InvoiceParseError str :=
  let d := pct_decode s in if utf8 C d then Ok d else Err EInvalidQueryParam.

(** parse.rs 457-470 *)
Definition map_query_params (C : Codecs) (q : option str)
  : result InvoiceParseError (list (str * str)) :=
  match q with
  | None => Ok []
  | Some q =>
      rfold (fun m p =>
               match split_once "="%char p with
               | Some (k, v) =>
                   let! k := percent_decode C k in
                   let! v := percent_decode C v in
                   Ok (imap_insert k v m)
               | None => Err EInvalidQueryParam
               end) [] (split_all "&"%char q)
  end.

(** parse.rs 351-447 *)
Definition invoice_from_str (C : Codecs) (s : str) : result InvoiceParseError RgbInvoice :=
  let! uri := uri_parse s in
  let! scheme := ok_or EInvalid (uri_scheme uri) in
  if negb (streqb scheme (lit "rgb")) then Err EInvalidScheme else
  let path := uri_path uri in
  if (match path with c :: _ => is_char c "/"%char | [] => false end) || uri_authority uri
  then Err EAuthority else
  let segs := match path with [] => [] | _ => split_all "/"%char path end in
  match segs with
  | [] => Err EContractMissed
  | cid :: segs =>
      let! contract := match cid_parse C cid with
                       | Some c => Ok (Some c)
                       | None => if streqb cid OMITTED then Ok None else Err EInvalidContractId
                       end in
      match segs with
      | [] => Err EIfaceMissed
      | ifc :: segs =>
          let! iface := if typename_ok C ifc then Ok (Some ifc)
                        else if streqb ifc OMITTED then Ok None else Err EInvalidIface in
          if (match contract, iface with Some _, None => true | _, _ => false end)
          then Err EContractIdNoIface else
          match segs with
          | [] => Err EAssignmentMissed
          | a :: _ =>
              let! bv := match split_once "+"%char a with
                         | Some (a, b) =>
                             match state_from_str C a with
                             | Some st => Ok (b, st)
                             | None => Err EData
                             end
                         | None => Ok (a, ISVoid)
                         end in
              let! beneficiary := beneficiary_from_str C (fst bv) in
              let! query_params := map_query_params C (uri_query uri) in
              let '(ep, query_params) := imap_remove ENDPOINTS query_params in
              let! transports :=
                match ep with
                | Some ep =>
                    rfold (fun l t =>
                             let! t := rmap_err (fun _ => EInvalidQueryParam) (transport_from_str t) in
                             Ok (l ++ [t])) [] (split_all TRANSPORT_SEP ep)
                | None => Ok [UnspecifiedMeans]
                end in
              let '(ex, query_params) := imap_remove EXPIRY query_params in
              let! expiry :=
                match ex with
                | Some e => let! t := ok_or EInvalidExpiration (i64_parse e) in Ok (Some t)
                | None => Ok None
                end in
              Ok {| transports := transports; contract := contract; iface := iface;
                    operation := None; assignment := None; beneficiary := beneficiary;
                    owned_state := snd bv; expiry := expiry; unknown_query := query_params |}
          end
      end
  end.

(** ** The builder, builder.rs *)

(** builder.rs 35-47 *)
Definition builder_new (b : XChainNet Beneficiary) : RgbInvoice :=
  {| transports := [UnspecifiedMeans]; contract := None; iface := None; operation := None;
     assignment := None; beneficiary := b; owned_state := ISVoid; expiry := None;
     unknown_query := [] |}.

Definition set_transports (i : RgbInvoice) (t : list RgbTransport) : RgbInvoice :=
  {| transports := t; contract := contract i; iface := iface i; operation := operation i;
     assignment := assignment i; beneficiary := beneficiary i; owned_state := owned_state i;
     expiry := expiry i; unknown_query := unknown_query i |}.
(** builder.rs 61-64 *)
Definition set_contract (i : RgbInvoice) (c : N) : RgbInvoice :=
  {| transports := transports i; contract := Some c; iface := iface i; operation := operation i;
     assignment := assignment i; beneficiary := beneficiary i; owned_state := owned_state i;
     expiry := expiry i; unknown_query := unknown_query i |}.
(** builder.rs 66-69 *)
Definition set_interface (i : RgbInvoice) (n : str) : RgbInvoice :=
  {| transports := transports i; contract := contract i; iface := Some n; operation := operation i;
     assignment := assignment i; beneficiary := beneficiary i; owned_state := owned_state i;
     expiry := expiry i; unknown_query := unknown_query i |}.
(** builder.rs 49-51 ([with]), 53-55 ([rgb20]), 57-59 ([rgb20_anything]), 173 ([finish]) *)
Definition builder_with (c : N) (b : XChainNet Beneficiary) : RgbInvoice := set_contract (builder_new b) c.
Definition RGB20 : str := lit "RGB20".
Definition builder_rgb20 (c : N) (b : XChainNet Beneficiary) : RgbInvoice := set_interface (builder_with c b) RGB20.
Definition builder_rgb20_anything (b : XChainNet Beneficiary) : RgbInvoice := set_interface (builder_new b) RGB20.
Definition finish (i : RgbInvoice) : RgbInvoice := i.
(** builder.rs 71-74 *)
Definition set_operation (i : RgbInvoice) (n : str) : RgbInvoice :=
  {| transports := transports i; contract := contract i; iface := iface i; operation := Some n;
     assignment := assignment i; beneficiary := beneficiary i; owned_state := owned_state i;
     expiry := expiry i; unknown_query := unknown_query i |}.
(** builder.rs 76-79 *)
Definition set_assignment (i : RgbInvoice) (n : str) : RgbInvoice :=
  {| transports := transports i; contract := contract i; iface := iface i; operation := operation i;
     assignment := Some n; beneficiary := beneficiary i; owned_state := owned_state i;
     expiry := expiry i; unknown_query := unknown_query i |}.
Definition set_state (i : RgbInvoice) (st : InvoiceState) : RgbInvoice :=
  {| transports := transports i; contract := contract i; iface := iface i; operation := operation i;
     assignment := assignment i; beneficiary := beneficiary i; owned_state := st;
     expiry := expiry i; unknown_query := unknown_query i |}.
(** builder.rs 81-84 *)
Definition set_amount_raw (i : RgbInvoice) (a : Amount) : RgbInvoice := set_state i (ISAmount a).
(** builder.rs 101-104 *)
Definition set_allocation_raw (i : RgbInvoice) (a : Allocation) : RgbInvoice := set_state i (ISData a).
(** builder.rs 124-127 *)
Definition set_expiry_timestamp (i : RgbInvoice) (e : Z) : RgbInvoice :=
  {| transports := transports i; contract := contract i; iface := iface i; operation := operation i;
     assignment := assignment i; beneficiary := beneficiary i; owned_state := owned_state i;
     expiry := Some e; unknown_query := unknown_query i |}.
(** builder.rs 129-133 *)
Definition drop_unspecified_transport (i : RgbInvoice) : RgbInvoice :=
  if is_sole_unspecified (transports i) then set_transports i [] else i.
(** builder.rs 143-147 *)
Definition add_transport_raw (i : RgbInvoice) (t : RgbTransport) : RgbInvoice :=
  let i := drop_unspecified_transport i in set_transports i (transports i ++ [t]).
(** builder.rs 164-171 *)
Definition add_transports_raw (i : RgbInvoice) (ts : list RgbTransport) : RgbInvoice :=
  let i := drop_unspecified_transport i in set_transports i (transports i ++ ts).

(** What a builder call returns: [Ok(self)], [Err(self)]/[Err((self, err))], or a panic *)
Inductive outcome := Done (i : RgbInvoice) | Failed (i : RgbInvoice) | Panicked.

(** builder.rs 86-99 *)
Definition set_amount (i : RgbInvoice) (integer decimals : N) (p : Precision) : outcome :=
  match coin_with integer decimals p with
  | Err _ => Failed i
  | Panic => Panicked
  | Ok c => match @to_amount_unchecked PrecisionError c with
            | Ok a => Done (set_state i (ISAmount a))
            | _ => Panicked
            end
  end.
(** An [f64]: finite ones are dyadic rationals [num / 2^k] *)
Inductive F64 := F64Finite (num : Z) (k : N) | F64Infinity | F64NegInfinity | F64NaN.
(** builder.rs 115-122.  For finite numbers [floor] and the subtraction are exact, the casts
    saturate (coins) and truncate (cents).  No comparison holds of [NaN], and a cast makes it
    zero; so does infinity minus infinity. *)
Definition set_amount_approx (i : RgbInvoice) (x : F64) (p : Precision) : outcome :=
  match x with
  | F64Finite num k =>
      if (num <=? 0)%Z then Failed i else
      let coins := Z.to_N num / 2 ^ k in
      let cents_num := Z.to_N num - coins * 2 ^ k in
      set_amount i (N.min coins U64MAX) (cents_num / 2 ^ k) p
  | F64NegInfinity => Failed i
  | F64Infinity => set_amount i U64MAX 0 p
  | F64NaN => set_amount i 0 0 p
  end.
(** builder.rs 106-108 *)
Definition set_allocation (i : RgbInvoice) (index fraction : N) : outcome :=
  Done (set_allocation_raw i {| al_index := index; al_fraction := fraction |}).
(** builder.rs 135-141 *)
Definition add_transport (i : RgbInvoice) (s : str) : outcome :=
  match transport_from_str s with Ok t => Done (add_transport_raw i t) | _ => Failed i end.
(** Collecting an iterator of results: all or the first error *)
Fixpoint collect_ok {E A} (l : list (result E A)) : option (list A) :=
  match l with
  | [] => Some []
  | Ok a :: l' => option_map (cons a) (collect_ok l')
  | _ :: _ => None
  end.
(** builder.rs 149-162 *)
Definition add_transports (i : RgbInvoice) (ss : list str) : outcome :=
  match collect_ok (map transport_from_str ss) with
  | Some ts => Done (add_transports_raw i ts)
  | None => Failed i
  end.

(** A call of the builder API *)
Inductive BuilderCall :=
| CSetContract (c : N) | CSetInterface (n : str) | CSetOperation (n : str)
| CSetAssignment (n : str) | CSetAmountRaw (a : Amount) | CSetAmount (i d : N) (p : Precision)
| CSetAmountApprox (x : F64) (p : Precision)
| CSetAllocationRaw (a : Allocation) | CSetAllocation (i f : N) | CSetExpiry (e : Z)
| CAddTransport (s : str) | CAddTransportRaw (t : RgbTransport)
| CAddTransports (ss : list str) | CAddTransportsRaw (ts : list RgbTransport).

Definition builder_call (i : RgbInvoice) (c : BuilderCall) : outcome :=
  match c with
  | CSetContract c => Done (set_contract i c)
  | CSetInterface n => Done (set_interface i n)
  | CSetOperation n => Done (set_operation i n)
  | CSetAssignment n => Done (set_assignment i n)
  | CSetAmountRaw a => Done (set_amount_raw i a)
  | CSetAmount n d p => set_amount i n d p
  | CSetAmountApprox x p => set_amount_approx i x p
  | CSetAllocationRaw a => Done (set_allocation_raw i a)
  | CSetAllocation n f => set_allocation i n f
  | CSetExpiry e => Done (set_expiry_timestamp i e)
  | CAddTransport s => add_transport i s
  | CAddTransportRaw t => Done (add_transport_raw i t)
  | CAddTransports ss => add_transports i ss
  | CAddTransportsRaw ts => Done (add_transports_raw i ts)
  end.

(** A caller which goes on with the returned builder after a failure; [None] after a panic *)
Fixpoint builder_run (i : RgbInvoice) (cs : list BuilderCall) : option RgbInvoice :=
  match cs with
  | [] => Some i
  | c :: cs' => match builder_call i c with
                | Done i' | Failed i' => builder_run i' cs'
                | Panicked => None
                end
  end.
