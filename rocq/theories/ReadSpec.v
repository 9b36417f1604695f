(** * What the text of an invoice says: specification for C81 *)
From Coq Require Import Ascii String.
From Verif Require Import Base Str AmountModel AmountSpec LettersSpec InvoiceModel InvoiceSpec.
Local Open Scope N_scope.

(** ** Characters *)

Definition path_letters : str :=
  lit "ABCDEFGHIJKLMNOPQRSTUVWXYZabcdefghijklmnopqrstuvwxyz0123456789-._~!$&'()*+,;=:@/".
Definition query_letters : str := path_letters ++ lit "?".

(** The value of a hexadecimal digit, in either case *)
Definition hexval (c : ascii) (v : N) : Prop :=
  nth_error (lit "0123456789ABCDEF") (N.to_nat v) = Some c \/ nth_error (lit "0123456789abcdef") (N.to_nat v) = Some c.

(** A text made of the letters and of escapes such as %2F *)
Inductive escaped (letters : str) : str -> Prop :=
| es_nil : escaped letters []
| es_char c s : In c letters -> escaped letters s -> escaped letters (c :: s)
| es_pct h l a b s : hexval h a -> hexval l b -> escaped letters s -> escaped letters ("%"%char :: h :: l :: s).

(** [t] is [s] with the escapes replaced. *)
Inductive decodes : str -> str -> Prop :=
| de_nil : decodes [] []
| de_char c s t : c <> "%"%char -> decodes s t -> decodes (c :: s) (c :: t)
| de_pct h l a b s t : hexval h a -> hexval l b -> decodes s t -> decodes ("%"%char :: h :: l :: s) (ascii_of_N (16 * a + b) :: t).

(** [s] is the parts with the separator between them. *)
Definition parted (sep : ascii) (s : str) (parts : list str) : Prop :=
  parts <> [] /\ s = join [sep] parts /\ forall p, In p parts -> ~ In sep p.

(** ** Parameters *)

(** name=value *)
Inductive param (C : Codecs) : str -> str * str -> Prop :=
| pa_of k v k' v' : ~ In "="%char k -> decodes k k' -> decodes v v' -> utf8 C k' = true -> utf8 C v' = true ->
    param C (k ++ "="%char :: v) (k', v').

(** The parameters in the order of the text *)
Definition params (C : Codecs) (query : option str) (ps : list (str * str)) : Prop :=
  match query with
  | None => ps = []
  | Some q => exists parts, parted "&"%char q parts /\ Forall2 (param C) parts ps
  end.

(** The last value given for a name *)
Definition last_value (k : str) (ps : list (str * str)) (v : str) : Prop :=
  exists before after, ps = before ++ (k, v) :: after /\ ~ In k (map fst after).

Definition reads_endpoints (ps : list (str * str)) (ts : list RgbTransport) : Prop :=
  (~ In (lit "endpoints") (map fst ps) /\ ts = [UnspecifiedMeans]) \/
  exists v parts, last_value (lit "endpoints") ps v /\ parted ","%char v parts /\ denotes_all parts ts.

(** A number of 64 bits with an optional sign *)
Definition signed (s : str) (z : Z) : Prop :=
  (- 2 ^ 63 <= z < 2 ^ 63)%Z /\
  exists ds n, decimal ds n /\ (((s = ds \/ s = "+"%char :: ds) /\ z = Z.of_N n) \/ (s = "-"%char :: ds /\ z = (- Z.of_N n)%Z)).
Definition reads_expiry (ps : list (str * str)) (e : option Z) : Prop :=
  (~ In (lit "expiry") (map fst ps) /\ e = None) \/
  exists v z, last_value (lit "expiry") ps v /\ signed v z /\ e = Some z.

(** The other parameters, each name once with the last value, in the order in which the names
    come first *)
Record others (ps uq : list (str * str)) : Prop := {
  oth_once : NoDup (map fst uq);
  oth_all : forall k v, In (k, v) uq <-> k <> lit "endpoints" /\ k <> lit "expiry" /\ last_value k ps v;
  oth_order : forall a b c k k' v v', uq = a ++ (k, v) :: b ++ (k', v') :: c ->
    exists p w q, ps = p ++ (k, w) :: q /\ ~ In k' (map fst p)
}.

(** ** The parts of the path *)

Definition reads_contract (C : Codecs) (s : str) (c : option N) : Prop :=
  match c with
  | Some id => cid_parse C s = Some id
  | None => cid_parse C s = None /\ s = lit "~"
  end.
Definition reads_iface (C : Codecs) (s : str) (i : option str) : Prop :=
  match i with
  | Some n => typename_ok C s = true /\ n = s
  | None => typename_ok C s = false /\ s = lit "~"
  end.

(** An amount, or a fraction of a token (such as 1@7), or an attachment *)
Definition allocation_text (s : str) (a : Allocation) : Prop :=
  exists F I, s = F ++ "@"%char :: I /\ ~ In "@"%char F /\
    number (2 ^ 64) F (al_fraction a) /\ number (2 ^ 32) I (al_index a).
Definition reads_state (C : Codecs) (s : str) (st : InvoiceState) : Prop :=
  match st with
  | ISVoid => s = []
  | ISAmount a => s <> [] /\ reads_amount s a
  | ISData a => allocation_text s a
  | ISAttach id => s <> [] /\ (forall a, ~ reads_amount s a) /\ (forall a, ~ allocation_text s a) /\ attach_parse C s = Some id
  end.

(** The network: its code in any case.  The code of the Liquid mainnet is read as that of
    Bitcoin (see C07). *)
Definition reads_network (s : str) (n : ChainNet) : Prop :=
  In (map ascii_lower s, n) [(lit "bc", BitcoinMainnet); (lit "tb", BitcoinTestnet); (lit "sb", BitcoinSignet);
    (lit "bcrt", BitcoinRegtest); (lit "lq", BitcoinMainnet); (lit "tl", LiquidTestnet)].

Definition payload_of (C : Codecs) (data : list N) (p : Pay2Vout) : Prop :=
  exists m t r, data = m :: t :: r /\
   ((m = 0 /\ p2v_method p = OpretFirst) \/ (m = 1 /\ p2v_method p = TapretFirst)) /\
   ((t = 1 /\ p2v_address p = Pkh (firstn 20 r)) \/ (t = 2 /\ p2v_address p = Sh (firstn 20 r)) \/
    (t = 3 /\ p2v_address p = Wpkh (firstn 20 r)) \/ (t = 4 /\ p2v_address p = Wsh r) \/
    (t = 5 /\ p2v_address p = Tr r /\ tapkey_ok C r = true)).
Definition reads_beneficiary (C : Codecs) (s : str) (b : XChainNet Beneficiary) : Prop :=
  exists net text, s = net ++ ":"%char :: text /\ ~ In ":"%char net /\ reads_network net (chain_network b) /\
    match xcn_into_inner b with
    | BlindedSeal x => seal_parse C text = Some x
    | WitnessVout p => seal_parse C text = None /\ exists data, baid_parse C text = Some data /\ payload_of C data p
    end.

(** [state+]beneficiary *)
Definition reads_assignment (C : Codecs) (s : str) (st : InvoiceState) (b : XChainNet Beneficiary) : Prop :=
  (~ In "+"%char s /\ st = ISVoid /\ reads_beneficiary C s b) \/
  exists a t, s = a ++ "+"%char :: t /\ ~ In "+"%char a /\ reads_state C a st /\ reads_beneficiary C t b.

(** ** The invoice *)

(** A text [rgb:contract/interface/assignment], with further segments which are ignored, and
    perhaps parameters, and perhaps a fragment which is ignored *)
Record reads (C : Codecs) (s : str) (i : RgbInvoice) : Prop := {
  rd_text : exists contract_text iface_text assignment_text more query fragment ps,
    s = lit "rgb:" ++ contract_text ++ lit "/" ++ iface_text ++ lit "/" ++ assignment_text ++ more ++
        match query with Some q => lit "?" ++ q | None => [] end ++
        match fragment with Some f => lit "#" ++ f | None => [] end /\
    contract_text <> [] /\
    (forall t, t = contract_text \/ t = iface_text \/ t = assignment_text -> escaped path_letters t /\ ~ In "/"%char t) /\
    (more = [] \/ exists m, more = lit "/" ++ m /\ escaped path_letters m) /\
    (forall t, query = Some t \/ fragment = Some t -> escaped query_letters t) /\
    reads_contract C contract_text (contract i) /\
    reads_iface C iface_text (iface i) /\
    reads_assignment C assignment_text (owned_state i) (beneficiary i) /\
    params C query ps /\ reads_endpoints ps (transports i) /\ reads_expiry ps (expiry i) /\ others ps (unknown_query i);
  rd_iface : contract i <> None -> iface i <> None;
  rd_none : operation i = None /\ assignment i = None
}.
