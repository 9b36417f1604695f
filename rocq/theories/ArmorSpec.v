(** * What armored texts must tell: specification for C69 *)
From Coq Require Import String.
From Verif Require Import Base Str Core ContainerModel StashModel ArmorModel.

(** The headers with a title, in their order *)
Definition titled (title : str) (l : list Header) : list Header := filter (fun h => streqb (hd_title h) title) l.

(** One header with this title, with these values *)
Definition says (l : list Header) (title : str) (values : list str) : Prop :=
  titled title l = [{| hd_title := title; hd_values := values; hd_params := [] |}].
(** No header with this title *)
Definition silent (l : list Header) (title : str) : Prop := titled title l = [].

(** The annotation shown for a content: the first about it in the kit *)
Definition shown_note (l : list SupplRec) (ct : ContentId) (o : option SupplRec) : Prop :=
  match o with
  | Some s => exists before after, l = before ++ s :: after /\ su_content s = ct /\
                forall x, In x before -> su_content x <> ct
  | None => forall x, In x l -> su_content x <> ct
  end.
Definition note_param (T : Texts) (o : option SupplRec) : list (str * str) :=
  match o with Some s => [(lit "suppl", tx_suppl T s)] | None => [] end.

(** The armor reads this container back from the text it wrote of it, with the headers given
    and others of its own, of other titles, in front. *)
Definition reads_back {A} (R : Armor A) (hs : list Header) (a : A) : Prop :=
  exists more, ar_read R (ar_write R hs a) = Some (more ++ hs, a) /\ titled tType more = [].
(** Headers which were read have a value. *)
Definition armor_values {A} (R : Armor A) : Prop :=
  forall s hs a h, ar_read R s = Some (hs, a) -> In h hs -> hd_values h <> [].
