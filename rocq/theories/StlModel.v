(** * Standard contract data: src/stl/specs.rs, src/stl/mime.rs, src/stl/chain.rs *)
From Coq Require Import Ascii String.
From Verif Require Import Base Str AmountModel.
Local Open Scope list_scope. Local Open Scope N_scope.

(** ** Restricted strings (crate strict_encoding) *)

(** [RString<C1, C, MIN, MAX>::from_str] and [try_from(String)]: the first character is in
    [C1], the others in [C], and the length is in range.  Its different errors are one here. *)
Inductive StlError := InvalidRString.
Definition rstring (first rest : ascii -> bool) (lo hi : N) (s : str) : result StlError str :=
  match s with
  | [] => if lo =? 0 then Ok [] else Err InvalidRString
  | c :: s' => if first c && forallb rest s' && (lo <=? len s) && (len s <=? hi) then Ok s else Err InvalidRString
  end.
Definition between (a b : N) (c : ascii) : bool := (a <=? N_of_ascii c) && (N_of_ascii c <=? b).
(** [AlphaSmall], [Alpha], [AlphaNum], [AsciiPrintable] *)
Definition alpha_small : ascii -> bool := between 97 122.
Definition alpha (c : ascii) : bool := between 65 90 c || between 97 122 c.
Definition alpha_num (c : ascii) : bool := alpha c || between 48 57 c.
Definition printable : ascii -> bool := between 32 126.
(** mime.rs 120-212 ([MimeChar]) *)
Definition mime_char (c : ascii) : bool :=
  existsb (is_char c) (lit "!#$&+-.^_"%string) || between 48 57 c || between 97 122 c.

(** specs.rs 77 ([Article]), 91 ([Ticker]), 117 ([Name]), mime.rs 103
    ([MediaRegName]): [from_str] *)
Definition article_of : str -> result StlError str := rstring alpha alpha_num 1 32.
Definition ticker_of : str -> result StlError str := rstring alpha alpha_num 1 8.
Definition name_of_text : str -> result StlError str := rstring printable printable 1 40.
Definition reg_name_of : str -> result StlError str := rstring alpha_small mime_char 1 64.
(** specs.rs 161-168 ([Details::from_str]): one to 255 bytes; the length is looked at after
    each character and at the end.  174-181 ([try_from]) does the same at once. *)
Definition details_of (s : str) : result StlError str :=
  if (1 <=? len s) && (len s <=? 255) then Ok s else Err InvalidRString.
(** specs.rs 347-354 ([RicardianContract::from_str]) *)
Definition ricardian_of (s : str) : result StlError str :=
  if len s <=? U16MAX then Ok s else Err InvalidRString.

(** ** Tickers *)

(** [str::to_uppercase] on ASCII text *)
Definition uppercase (s : str) : str := map ascii_upper s.
(** specs.rs 93-99 ([PartialEq]) *)
Definition ticker_eq (a b : str) : bool := streqb (uppercase a) (uppercase b).
(** specs.rs 101-103 ([Hash]), with any hasher for strings *)
Definition ticker_hash (hasher : str -> N) (a : str) : N := hasher (uppercase a).
(** specs.rs 82 (derived [Ord]): bytes are compared one after another *)
Fixpoint str_cmp (a b : str) : comparison :=
  match a, b with
  | [], [] => Eq
  | [], _ => Lt
  | _, [] => Gt
  | x :: a', y :: b' => match N.compare (N_of_ascii x) (N_of_ascii y) with Eq => str_cmp a' b' | o => o end
  end.
Definition ticker_cmp : str -> str -> comparison := str_cmp.

(** ** Media types *)

(** mime.rs 39-45 ([MediaType]) *)
Record MediaType := { mt_ty : str; mt_subtype : option str; mt_charset : option str }.

(** An invalid name panics in [MediaRegName::from] *)
Definition valid_or_panic {A} (r : result StlError A) : result StlError A := match r with Ok a => Ok a | _ => Panic end.

(** mime.rs 56-63 ([with]) *)
Definition media_with (s : str) : result StlError MediaType :=
  match split_once (ch "/"%string) s with
  | None => Panic
  | Some (ty, sub) =>
      let! t := valid_or_panic (reg_name_of ty) in
      let! st := (if streqb sub (lit "*"%string) then Ok None else rmap Some (valid_or_panic (reg_name_of sub))) in
      Ok {| mt_ty := t; mt_subtype := st; mt_charset := None |}
  end.

(** mime.rs 83-92 ([Display]) *)
Definition media_display (m : MediaType) : str :=
  mt_ty m ++ lit "/"%string ++ match mt_subtype m with Some s => s | None => lit "*"%string end.

(** ** Specifications *)

(** specs.rs 199-204 ([AssetSpec]), 267-272 ([ContractSpec]) *)
Record AssetSpec := { as_ticker : str; as_name : str; as_details : option str; as_precision : Precision }.
Record ContractSpec := { sp_article : option str; sp_name : str; sp_details : option str; sp_precision : Precision }.

(** [details.map(Details::from_str).transpose()?] *)
Definition opt_details (d : option str) : result StlError (option str) :=
  match d with None => Ok None | Some s => rmap Some (details_of s) end.

(** specs.rs 218-230 ([AssetSpec::with]), 286-298 ([ContractSpec::with]) *)
Definition asset_with (ticker name : str) (p : Precision) (details : option str) : result StlError AssetSpec :=
  let! t := ticker_of ticker in
  let! n := name_of_text name in
  let! d := opt_details details in
  Ok {| as_ticker := t; as_name := n; as_details := d; as_precision := p |}.
Definition contract_with (article name : str) (p : Precision) (details : option str) : result StlError ContractSpec :=
  let! a := article_of article in
  let! n := name_of_text name in
  let! d := opt_details details in
  Ok {| sp_article := Some a; sp_name := n; sp_details := d; sp_precision := p |}.

(** specs.rs 209-216 ([AssetSpec::new]), 277-284 ([ContractSpec::new]): invalid text panics *)
Definition asset_new (ticker name : str) (p : Precision) : result StlError AssetSpec :=
  let! t := valid_or_panic (ticker_of ticker) in
  let! n := valid_or_panic (name_of_text name) in
  Ok {| as_ticker := t; as_name := n; as_details := None; as_precision := p |}.
Definition contract_new (name : str) (p : Precision) : result StlError ContractSpec :=
  let! n := valid_or_panic (name_of_text name) in
  Ok {| sp_article := None; sp_name := n; sp_details := None; sp_precision := p |}.

(** ** Reading contract data *)

(** strict_types [StrictVal], as far as it is read here *)
Inductive StrictVal :=
| VUint (n : N) | VEnum (n : N) | VString (s : str) | VBytes (b : list N)
| VNone | VSome (v : StrictVal) | VStruct (fields : list (str * StrictVal)).

(** strict_types [unwrap_struct], [unwrap_string], [unwrap_option], [unwrap_enum],
    [unwrap_uint], [unwrap_bytes]: they panic on other values *)
Definition unwrap_struct (f : str) (v : StrictVal) : result StlError StrictVal :=
  match v with
  | VStruct l => match find (fun p => streqb (fst p) f) l with Some p => Ok (snd p) | None => Panic end
  | _ => Panic
  end.
Definition unwrap_string (v : StrictVal) : result StlError str := match v with VString s => Ok s | _ => Panic end.
Definition unwrap_option (v : StrictVal) : result StlError (option StrictVal) :=
  match v with VNone => Ok None | VSome x => Ok (Some x) | _ => Panic end.
Definition unwrap_precision (v : StrictVal) : result StlError Precision :=
  match v with VEnum n => match precision_of_u8 n with Some p => Ok p | None => Panic end | _ => Panic end.
Definition unwrap_uint (max : N) (v : StrictVal) : result StlError N :=
  match v with VUint n => if n <=? max then Ok n else Panic | _ => Panic end.
Definition unwrap_bytes (v : StrictVal) : result StlError (list N) := match v with VBytes b => Ok b | _ => Panic end.

Definition fld (s : string) : str := lit s.
(** [.unwrap_option().map(f)] *)
Definition opt_val {A} (f : StrictVal -> result StlError A) (v : StrictVal) : result StlError (option A) :=
  let! o := unwrap_option v in
  match o with None => Ok None | Some x => rmap Some (f x) end.
Definition read_text (f : str -> result StlError str) (v : StrictVal) : result StlError str :=
  let! s := unwrap_string v in valid_or_panic (f s).

(** specs.rs 232-250 ([AssetSpec::from_strict_val_unchecked]), 300-320 ([ContractSpec]) *)
Definition asset_from (v : StrictVal) : result StlError AssetSpec :=
  let! t := (let! x := unwrap_struct (fld "ticker") v in unwrap_string x) in
  let! n := (let! x := unwrap_struct (fld "name") v in unwrap_string x) in
  let! d := (let! x := unwrap_struct (fld "details") v in opt_val unwrap_string x) in
  let! p := (let! x := unwrap_struct (fld "precision") v in unwrap_precision x) in
  let! t' := valid_or_panic (ticker_of t) in
  let! n' := valid_or_panic (name_of_text n) in
  let! d' := valid_or_panic (opt_details d) in
  Ok {| as_ticker := t'; as_name := n'; as_details := d'; as_precision := p |}.
Definition contract_from (v : StrictVal) : result StlError ContractSpec :=
  let! a := (let! x := unwrap_struct (fld "article") v in unwrap_option x) in
  let! n := (let! x := unwrap_struct (fld "name") v in unwrap_string x) in
  let! d := (let! x := unwrap_struct (fld "details") v in opt_val unwrap_string x) in
  let! p := (let! x := unwrap_struct (fld "precision") v in unwrap_precision x) in
  let! a' := match a with None => Ok None | Some x => rmap Some (read_text article_of x) end in
  let! n' := valid_or_panic (name_of_text n) in
  let! d' := valid_or_panic (opt_details d) in
  Ok {| sp_article := a'; sp_name := n'; sp_details := d'; sp_precision := p |}.

(** mime.rs 65-80 ([MediaType::from_strict_val_unchecked]) and 108-112 ([MediaRegName]) *)
Definition media_from (v : StrictVal) : result StlError MediaType :=
  let! t := (let! x := unwrap_struct (fld "type") v in read_text reg_name_of x) in
  let! s := (let! x := unwrap_struct (fld "subtype") v in opt_val (read_text reg_name_of) x) in
  let! c := (let! x := unwrap_struct (fld "charset") v in opt_val (read_text reg_name_of) x) in
  Ok {| mt_ty := t; mt_subtype := s; mt_charset := c |}.

(** specs.rs 364-383 ([Attachment]), 393-410 ([ContractTerms]): the digest has 32 bytes *)
Record MediaAttachment := { ma_ty : MediaType; ma_digest : list N }.
Record ContractTerms := { te_text : str; te_media : option MediaAttachment }.
Definition attachment_from (v : StrictVal) : result StlError MediaAttachment :=
  let! t := (let! x := unwrap_struct (fld "type") v in media_from x) in
  let! d := (let! x := unwrap_struct (fld "digest") v in unwrap_bytes x) in
  if len d =? 32 then Ok {| ma_ty := t; ma_digest := d |} else Panic.
Definition terms_from (v : StrictVal) : result StlError ContractTerms :=
  let! t := (let! x := unwrap_struct (fld "text") v in read_text ricardian_of x) in
  let! m := (let! x := unwrap_struct (fld "media") v in opt_val attachment_from x) in
  Ok {| te_text := t; te_media := m |}.

(** chain.rs 34-37 ([ProofOfReserves]), 46-56: [Txid::from_slice_unsafe] panics on other
    than 32 bytes, [SmallBlob::from_checked] on more than 65535 *)
Record Reserves := { rs_txid : list N; rs_vout : N; rs_proof : list N }.
Definition reserves_from (v : StrictVal) : result StlError Reserves :=
  let! u := unwrap_struct (fld "utxo") v in
  let! t := (let! x := unwrap_struct (fld "txid") u in unwrap_bytes x) in
  let! t' := (if len t =? 32 then Ok t else Panic) in
  let! o := (let! x := unwrap_struct (fld "vout") u in unwrap_uint U32MAX x) in
  let! p := (let! x := unwrap_struct (fld "proof") v in unwrap_bytes x) in
  if len p <=? U16MAX then Ok {| rs_txid := t'; rs_vout := o; rs_proof := p |} else Panic.
