(** * Specification of standard contract data, for C51, C52 and C58 *)
From Coq Require Import Ascii String.
From Verif Require Import Base Str AmountModel StlModel.
Local Open Scope list_scope. Local Open Scope N_scope.

(** ** Alphabets *)
Definition capitals : str := lit "ABCDEFGHIJKLMNOPQRSTUVWXYZ"%string.
Definition smalls : str := lit "abcdefghijklmnopqrstuvwxyz"%string.
Definition digits : str := lit "0123456789"%string.
Definition letters : str := capitals ++ smalls.
Definition alphanumeric : str := letters ++ digits.
Definition punctuation : str := lit " !#$%&'()*+,-./:;<=>?@[\]^_`{|}~"%string ++ [ascii_of_N 34].
Definition visible : str := alphanumeric ++ punctuation.
Definition media_chars : str := smalls ++ digits ++ lit "!#$&+-.^_"%string.

(** Text of [lo] to [hi] characters, starting with one of [first], going on with [rest] *)
Definition text (first rest : str) (lo hi : N) (s : str) : Prop :=
  (exists c s', s = c :: s' /\ In c first /\ Forall (fun d => In d rest) s') /\ lo <= len s <= hi.
Definition is_article : str -> Prop := text letters alphanumeric 1 32.
Definition is_ticker : str -> Prop := text letters alphanumeric 1 8.
Definition is_name : str -> Prop := text visible visible 1 40.
Definition is_media_name : str -> Prop := text smalls media_chars 1 64.
Definition is_details (s : str) : Prop := 1 <= len s <= 255.
Definition is_ricardian (s : str) : Prop := len s <= 65535.
Definition if_any {A} (P : A -> Prop) (o : option A) : Prop := forall a, o = Some a -> P a.

(** ** Tickers *)

(** The same letter in both cases *)
Definition case_pair (x y : ascii) : Prop := exists k, nth_error capitals k = Some x /\ nth_error smalls k = Some y.
Definition same_char (x y : ascii) : Prop := x = y \/ case_pair x y \/ case_pair y x.
Definition same_text (a b : str) : Prop := Forall2 same_char a b.
Definition no_smalls (a : str) : Prop := forall c, In c a -> ~ In c smalls.

(** ** Media types, specifications and terms which can exist *)
Definition is_media (m : MediaType) : Prop :=
  is_media_name (mt_ty m) /\ if_any is_media_name (mt_subtype m) /\ if_any is_media_name (mt_charset m).
Definition is_asset (s : AssetSpec) : Prop := is_ticker (as_ticker s) /\ is_name (as_name s) /\ if_any is_details (as_details s).
Definition is_contract (s : ContractSpec) : Prop :=
  if_any is_article (sp_article s) /\ is_name (sp_name s) /\ if_any is_details (sp_details s).
Definition is_attachment (a : MediaAttachment) : Prop := is_media (ma_ty a) /\ len (ma_digest a) = 32.
Definition is_terms (t : ContractTerms) : Prop := is_ricardian (te_text t) /\ if_any is_attachment (te_media t).
Definition is_reserves (r : Reserves) : Prop := len (rs_txid r) = 32 /\ rs_vout r <= 4294967295 /\ len (rs_proof r) <= 65535.

(** ** Strict values *)

(** The first field [f] of the structure [v] is [x] *)
Definition has (v : StrictVal) (f : string) (x : StrictVal) : Prop :=
  exists l1 l2, v = VStruct (l1 ++ (lit f, x) :: l2) /\ ~ In (lit f) (map fst l1).
(** An optional value, given how the value inside is written *)
Definition optional {A} (wr : StrictVal -> A -> Prop) (v : StrictVal) (o : option A) : Prop :=
  match o with None => v = VNone | Some a => exists x, v = VSome x /\ wr x a end.
Definition string_val (v : StrictVal) (s : str) : Prop := v = VString s.

(** [v] holds the data *)
Definition holds_asset (v : StrictVal) (s : AssetSpec) : Prop :=
  has v "ticker" (VString (as_ticker s)) /\ has v "name" (VString (as_name s)) /\
  (exists d, has v "details" d /\ optional string_val d (as_details s)) /\
  has v "precision" (VEnum (decimals (as_precision s))).
Definition holds_contract (v : StrictVal) (s : ContractSpec) : Prop :=
  (exists a, has v "article" a /\ optional string_val a (sp_article s)) /\ has v "name" (VString (sp_name s)) /\
  (exists d, has v "details" d /\ optional string_val d (sp_details s)) /\
  has v "precision" (VEnum (decimals (sp_precision s))).
Definition holds_media (v : StrictVal) (m : MediaType) : Prop :=
  has v "type" (VString (mt_ty m)) /\ (exists s, has v "subtype" s /\ optional string_val s (mt_subtype m)) /\
  (exists c, has v "charset" c /\ optional string_val c (mt_charset m)).
Definition holds_attachment (v : StrictVal) (a : MediaAttachment) : Prop :=
  (exists t, has v "type" t /\ holds_media t (ma_ty a)) /\ has v "digest" (VBytes (ma_digest a)).
Definition holds_terms (v : StrictVal) (t : ContractTerms) : Prop :=
  has v "text" (VString (te_text t)) /\ (exists m, has v "media" m /\ optional holds_attachment m (te_media t)).
Definition holds_reserves (v : StrictVal) (r : Reserves) : Prop :=
  (exists u, has v "utxo" u /\ has u "txid" (VBytes (rs_txid r)) /\ has u "vout" (VUint (rs_vout r))) /\
  has v "proof" (VBytes (rs_proof r)).
