(** * Two stocks which were told the same: specification for C74 *)
From Verif Require Import Base StM Core ContainerModel PIndexModel StateModel StateSpec StashModel StockModel StockAgain LedgerSpec.
Local Open Scope N_scope.

(** The stock says the same of the contract, whichever query is made: what queries read is the
    same record, or both do not know the contract. *)
Definition agree_on (s s' : Stock) (cid : N) : Prop :=
  contract_state (sk_state s) cid = contract_state (sk_state s') cid.

(** The same was brought, with the same seals opened. *)
Definition told_same (H : Hashes) (l l' : list StockCall) (cid : N) : Prop :=
  forall ow o x, told H l cid ow o x <-> told H l' cid ow o x.

(** All consignments of a contract have one and the same schema, as the schema id in the
    genesis commits to it. *)
Definition one_schema (H : Hashes) (l : list StockCall) : Prop :=
  forall c r c' r', In (SkAccept c r) l -> In (SkAccept c' r') l ->
    op_id H (c_genesis c) = op_id H (c_genesis c') -> c_schema c = c_schema c'.

(** The same calls, in whichever order and however often *)
Definition same_calls (l l' : list StockCall) : Prop := forall c, In c l <-> In c l'.

(** Secret seals are stored before anything is accepted. *)
Definition seals_first (l : list StockCall) : Prop :=
  exists seals rest, l = seals ++ rest /\
    (forall c, In c seals -> exists s, c = SkSeal s) /\ (forall s, ~ In (SkSeal s) rest).

(** Heights are positive: they are [NonZeroU32] in the code. *)
Definition positive (r : Resolver) : Prop := forall w t, r w <> Some (Mined 0 t).
Definition positive_calls (l : list StockCall) : Prop :=
  forall c r, In c l -> (exists x, c = SkAccept x r) \/ (exists x, c = SkFascia x r) \/ (exists n, c = SkUpdate r n) -> positive r.
