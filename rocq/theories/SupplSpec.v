(** What C20, C21, C22, C56 and C57 say. *)
From Verif Require Import Base Str.
From Verif Require Export SupplModel.
Local Open Scope N_scope.

(** A supplement as a function from keys to stored bytes *)
Definition view (s : Supplement) (k : SupplSub * SupplItem * str) : option blob :=
  annotation s (fst (fst k)) (snd (fst k)) (snd k).

(** Reading back what was written *)
Definition reads_back {T} (ser : T -> option blob) (de : blob -> option T) : Prop :=
  forall t b, ser t = Some b -> de b = Some t.

(** Everything else in the supplement is as before *)
Definition same_header (s s' : Supplement) : Prop :=
  sp_content s' = sp_content s /\ sp_timestamp s' = sp_timestamp s /\ sp_creator s' = sp_creator s.

(** There is room for one more key: in the innermost map always, in the map of items
    only if the item is new.  (The outermost map has ten keys at most.) *)
Definition room (s : Supplement) (sub : SupplSub) (item : SupplItem) : Prop :=
  match mget sub (sp_annotations s) with
  | None => True
  | Some a =>
      match mget item a with
      | Some b => len b < U8MAX
      | None => len a < U8MAX
      end
  end.

(** Supplements the API can hold: sorted maps within their limits *)
Definition suppl_wf (s : Supplement) : Prop :=
  msorted (sp_annotations s) /\
  forall sub a, mget sub (sp_annotations s) = Some a ->
    msorted a /\ len a <= U8MAX /\
    forall item b, mget item a = Some b -> msorted b /\ len b <= U8MAX.

(** A strict encoding: reading takes exactly what was written, and accepts only what
    writing produces. *)
Definition codec_ok {A} (C : Codec A) : Prop :=
  (forall a bytes rest, enc C a = Some bytes -> dec C (bytes ++ rest) = Some (a, rest)) /\
  (forall data a rest, dec C data = Some (a, rest) -> exists bytes, enc C a = Some bytes /\ data = bytes ++ rest).

(** The order of trust, least first *)
Definition trust_order : list TrustLevel := [Malicious; Unknown; Untrusted; Trusted; Ultimate].
Definition trust_below (a b : TrustLevel) : Prop :=
  exists l m r, trust_order = l ++ a :: m ++ b :: r.
