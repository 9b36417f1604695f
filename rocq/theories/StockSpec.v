(** * What is expected of files and failures: specification for C32, C33 *)
From Verif Require Import Base StM Core ContainerModel PIndexModel StateModel StashModel StockModel.

(** An encoding can be read back, and not from a part of it. *)
Definition codec_ok {A} (C : Codec A) : Prop :=
  (forall x, dec C (enc C x) = Some x) /\
  (forall x n, (n < length (enc C x))%nat -> dec C (firstn n (enc C x)) = None).
Definition codecs_ok (C : Codecs) : Prop :=
  codec_ok (co_stash C) /\ codec_ok (co_state C) /\ codec_ok (co_index C).

(** The files hold the stock, as far as there are files. *)
Definition in_sync (C : Codecs) (h : Host) : Prop :=
  forall d, ho_disk h = Some d -> load C d = Ok (ho_stock h).

(** No write fails and the process goes on. *)
Definition all_done (io : Ios) : Prop :=
  io_stash io = IoDone /\ io_state io = IoDone /\ io_index io = IoDone.

(** A process starting with an empty persistent stock *)
Definition fresh (C : Codecs) : Host :=
  {| ho_stock := sk_empty;
     ho_disk := Some {| d_stash := Some (enc (co_stash C) st_empty);
                        d_state := Some (enc (co_state C) ms_empty);
                        d_index := Some (enc (co_index C) mi_empty) |} |}.

(** A stock put together from the parts of others *)
Definition parts (stash state index : Stock) : Stock :=
  {| sk_stash := sk_stash stash; sk_state := sk_state state; sk_index := sk_index index |}.

(** All calls of a history succeed. *)
Fixpoint calls_succeed {OG : OrdKey GlobalOut} (H : Hashes) (K : Merkle) (C : Codecs) (h : Host)
  (l : list (StockCall * Ios)) : Prop :=
  match l with
  | [] => True
  | p :: l' => snd (stock_call H K C (snd p) (fst p) h) = Ok tt /\
               calls_succeed H K C (fst (stock_call H K C (snd p) (fst p) h)) l'
  end.
