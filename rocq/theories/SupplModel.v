(** * Supplements, container files, trust levels

    Models src/containers/suppl.rs, file.rs and util.rs. *)
From Coq Require Import Ascii String.
From Verif Require Import Base Str.
From Verif Require Export ContainerModel.
Local Open Scope list_scope.
Local Open Scope N_scope.

(** ** Annotations, suppl.rs *)

(** suppl.rs 135-147 ([SupplSub]) *)
Inductive SupplSub :=
| SubItself | SubMeta | SubGlobal | SubOwned | SubValency | SubAssignment | SubGenesis
| SubTransition | SubExtension | SubException.
Definition sub_key (s : SupplSub) : N :=
  match s with
  | SubItself => 0 | SubMeta => 1 | SubGlobal => 2 | SubOwned => 3 | SubValency => 4
  | SubAssignment => 5 | SubGenesis => 6 | SubTransition => 7 | SubExtension => 8 | SubException => 9
  end.
Lemma sub_key_inj a b : sub_key a = sub_key b -> a = b.
Proof. destruct a, b; (reflexivity || discriminate). Qed.
#[export] Instance OrdSupplSub : OrdKey SupplSub := OrdVia sub_key sub_key_inj.

(** suppl.rs 157-169 ([SupplItem]) *)
Inductive SupplItem :=
| ItDefault
| ItTypeNo (n : N)
| ItTypeName (s : str)
| ItFieldName (s : str)
| ItVariantName (s : str).
Definition item_key (i : SupplItem) : N * (N * str) :=
  match i with
  | ItDefault => (0, (0, []))
  | ItTypeNo n => (1, (n, []))
  | ItTypeName s => (2, (0, s))
  | ItFieldName s => (3, (0, s))
  | ItVariantName s => (4, (0, s))
  end.
Lemma item_key_inj a b : item_key a = item_key b -> a = b.
Proof. destruct a, b; cbn; intros [=]; subst; reflexivity. Qed.
#[export] Instance OrdSupplItem : OrdKey SupplItem := OrdVia item_key item_key_inj.

(** Strict-encoded data *)
Definition blob := list N.

(** suppl.rs 188 ([Annotations]), 177 ([SupplMap]) *)
Notation Annotations := (omap str blob).
Notation SupplMap := (omap SupplItem (omap str blob)).

(** suppl.rs 206-213 ([Supplement]) *)
Record Supplement := {
  sp_content : ContentId;
  sp_timestamp : Z;
  sp_creator : N;
  sp_annotations : omap SupplSub SupplMap
}.

Definition set_annotations (s : Supplement) (a : omap SupplSub SupplMap) : Supplement :=
  {| sp_content := sp_content s; sp_timestamp := sp_timestamp s; sp_creator := sp_creator s;
     sp_annotations := a |}.

(** suppl.rs 221-228 ([Supplement::new]), the clock as an argument *)
Definition supplement_new (content : ContentId) (creator : N) (now : Z) : Supplement :=
  {| sp_content := content; sp_timestamp := now; sp_creator := creator; sp_annotations := [] |}.

(** The stored bytes at a key, suppl.rs 251 *)
Definition annotation (s : Supplement) (sub : SupplSub) (item : SupplItem) (name : str) : option blob :=
  match mget sub (sp_annotations s) with
  | Some a => match mget item a with Some b => mget name b | None => None end
  | None => None
  end.

(** suppl.rs 245-253 ([Supplement::get]); the decoder is an argument *)
Definition suppl_get {T} (de : blob -> option T) (s : Supplement) (sub : SupplSub) (item : SupplItem) (name : str)
  : option (option T) :=
  option_map de (annotation s sub item name).

(** suppl.rs 232-243 ([get_default]), 224-230 ([get_default_opt]) *)
Definition suppl_get_default {T} (de : blob -> option T) (s : Supplement) (sub : SupplSub) (name : str) :=
  suppl_get de s sub ItDefault name.
Definition suppl_get_default_opt {T} (de : blob -> option T) (s : Supplement) (sub : SupplSub) (name : str)
  : option T :=
  match suppl_get_default de s sub name with Some (Some t) => Some t | _ => None end.

Inductive SerializeError := SerEncode | SerConfinement.

(** suppl.rs 272-292 ([Supplement::annotate]): the two inner maps are taken out of the
    supplement first; an error leaves them out.  Returns the supplement as it is after
    the call together with the result.  The encoder is an argument. *)
Definition annotate {T} (ser : T -> option blob) (sub : SupplSub) (item : SupplItem) (name : str) (data : T)
    (s : Supplement) : Supplement * result SerializeError bool :=
  let a := match mget sub (sp_annotations s) with Some a => a | None => [] end in
  let rest := set_annotations s (mremove sub (sp_annotations s)) in
  let b := match mget item a with Some b => b | None => [] end in
  let a := mremove item a in
  match ser data with
  | None => (rest, Err SerEncode)
  | Some bytes =>
      match cinsert U8MAX name bytes b with
      | None => (rest, Err SerConfinement)
      | Some b' =>
          match cinsert U8MAX item b' a with
          | None => (rest, Err SerConfinement)
          | Some a' =>
              match cinsert U8MAX sub a' (sp_annotations rest) with
              | None => (rest, Err SerConfinement)
              | Some m => (set_annotations s m, Ok (mhas name b))
              end
          end
      end
  end.

(** suppl.rs 263-270 ([annotate_default]), 255-261 ([annotate_itself]) *)
Definition annotate_default {T} (ser : T -> option blob) sub name (data : T) s :=
  annotate ser sub ItDefault name data s.
Definition annotate_itself {T} (ser : T -> option blob) name (data : T) s :=
  annotate_default ser SubItself name data s.

(** suppl.rs 327-343 ([VelocityHint]) and its numbers *)
Inductive VelocityHint := VhUnspecified | VhSeldom | VhEpisodic | VhRegular | VhFrequent | VhHighFrequency.
Definition velocity_value (v : VelocityHint) : N :=
  match v with
  | VhUnspecified => 0 | VhSeldom => 15 | VhEpisodic => 31 | VhRegular => 63
  | VhFrequent => 127 | VhHighFrequency => 255
  end.
(** suppl.rs 345-354 ([VelocityHint::with_value]) *)
Definition velocity_with_value (v : N) : VelocityHint :=
  if v =? 0 then VhUnspecified
  else if v <=? 15 then VhSeldom
  else if v <=? 31 then VhEpisodic
  else if v <=? 63 then VhRegular
  else if v <=? 127 then VhFrequent
  else VhHighFrequency.

(** ** Container files, file.rs *)

(** Bytes of a text *)
Definition bytes_of (s : str) : list N := map Ascii.N_of_ascii s.

(** file.rs 30 ([RGB_PREFIX]) *)
Definition RGB_PREFIX : list N := bytes_of (lit "RGB"%string) ++ [0].

Inductive FileKind := FKit | FContract | FTransfer.
(** file.rs 104-114 ([FileContent::MAGIC]) *)
Definition magic (k : FileKind) : list N :=
  bytes_of match k with FKit => lit "KIT"%string | FContract => lit "CON"%string | FTransfer => lit "TFR"%string end.

Inductive LoadError := InvalidMagic | LoadDecode.

(** [Read::read_exact]: the bytes and what is left, or an error at end of file *)
Definition read_exact (n : nat) (data : list N) : option (list N * list N) :=
  if (List.length data <? n)%nat then None else Some (firstn n data, skipn n data).

(** The strict encoding of a container type: writing may fail (size limits), reading
    takes the bytes it needs from the front *)
Record Codec (A : Type) := { enc : A -> option (list N); dec : list N -> option (A * list N) }.
Arguments enc {A}. Arguments dec {A}.

Definition bytes_eqb (a b : list N) : bool := if list_eq_dec N.eq_dec a b then true else false.

(** file.rs 54-68 ([FileContent::load]); trailing bytes are not looked at *)
Definition file_load {A} (C : Codec A) (k : FileKind) (data : list N) : result LoadError A :=
  let! (rgb, data) := ok_or LoadDecode (read_exact 4 data) in
  let! (m, data) := ok_or LoadDecode (read_exact 3 data) in
  if negb (bytes_eqb rgb RGB_PREFIX) || negb (bytes_eqb m (magic k)) then Err InvalidMagic
  else let! (me, _) := ok_or LoadDecode (dec C data) in Ok me.

(** file.rs 70-78 ([FileContent::save]): what is written if nothing fails *)
Definition file_save {A} (C : Codec A) (k : FileKind) (a : A) : option (list N) :=
  match enc C a with
  | Some bytes => Some (RGB_PREFIX ++ magic k ++ bytes)
  | None => None
  end.

(** file.rs 125-136 ([UniversalFile]); a transfer and a contract are the same type of
    consignment with a flag *)
Inductive UniversalFile (K C : Type) := UKit (kit : K) | UContract (c : C) | UTransfer (c : C).
Arguments UKit {K C}. Arguments UContract {K C}. Arguments UTransfer {K C}.

(** file.rs 139-154 ([UniversalFile::load]) *)
Definition universal_load {K C} (CK : Codec K) (CC : Codec C) (data : list N)
  : result LoadError (UniversalFile K C) :=
  let! (rgb, data) := ok_or LoadDecode (read_exact 4 data) in
  let! (m, data) := ok_or LoadDecode (read_exact 3 data) in
  if negb (bytes_eqb rgb RGB_PREFIX) then Err InvalidMagic
  else if bytes_eqb m (magic FKit) then rmap (fun p => UKit (fst p)) (ok_or LoadDecode (dec CK data))
  else if bytes_eqb m (magic FContract) then rmap (fun p => UContract (fst p)) (ok_or LoadDecode (dec CC data))
  else if bytes_eqb m (magic FTransfer) then rmap (fun p => UTransfer (fst p)) (ok_or LoadDecode (dec CC data))
  else Err InvalidMagic.

(** file.rs 156-172 ([UniversalFile::save]) *)
Definition universal_save {K C} (CK : Codec K) (CC : Codec C) (u : UniversalFile K C) : option (list N) :=
  let put m (o : option (list N)) :=
    match o with Some bytes => Some (RGB_PREFIX ++ magic m ++ bytes) | None => None end in
  match u with
  | UKit k => put FKit (enc CK k)
  | UContract c => put FContract (enc CC c)
  | UTransfer c => put FTransfer (enc CC c)
  end.

(** consignment.rs 436-447 ([FromStr for Consignment]); reading the armor is an
    argument.  [transfer] is the const parameter. *)
Inductive ConsignmentParseError := CpArmor | CpType.
Definition consignment_from_str (armor : str -> option Consignment) (transfer : bool) (s : str)
  : result ConsignmentParseError Consignment :=
  let! c := ok_or CpArmor (armor s) in
  if eqb (c_transfer c) transfer then Ok c else Err CpType.

(** ** Trust levels, util.rs *)

(** util.rs 69-76 ([TrustLevel]) *)
Inductive TrustLevel := Malicious | Unknown | Untrusted | Trusted | Ultimate.
Definition trust_value (t : TrustLevel) : N :=
  match t with Malicious => 16 | Unknown => 32 | Untrusted => 64 | Trusted => 128 | Ultimate => 192 end.
(** [derive(PartialOrd)] of a fieldless enum: by discriminant *)
Definition trust_le (a b : TrustLevel) : bool := trust_value a <=? trust_value b.
(** util.rs 71 ([#[default]]) *)
Definition trust_default : TrustLevel := Unknown.
(** util.rs 79-81 *)
Definition should_accept (t : TrustLevel) : bool := trust_le Unknown t.
Definition should_use (t : TrustLevel) : bool := trust_le Trusted t.
Definition must_use (t : TrustLevel) : bool := trust_le Ultimate t.
