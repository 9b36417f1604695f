(** * What it means that building is deterministic *)
From Verif Require Import Base Core BuilderModel BuilderSpec.
Local Open Scope N_scope.

(** ** Two builders were told the same *)

(** The same values for each type of global state, in the same order; the same state at each
    seal, the same inputs, nonce and chains.  (Metadata is not part of what is built, see C44.) *)
Record same_content (l l' : list Item) : Prop := {
  sc_globals : forall ty, all_for (globals l) ty = all_for (globals l') ty;
  sc_owned : forall k, latest (owned l) k = latest (owned l') k;
  sc_ins : forall o, latest (ins l) o = latest (ins l') o;
  sc_nonce : nonce_of l = nonce_of l'
}.
(** For a contract also the tags of assets and its chains *)
Record same_contract (l l' : list Item) : Prop := {
  sk_content : same_content l l';
  sk_tags : forall ty, latest (tags l) ty = latest (tags l') ty;
  sk_mainnet : In ItMainnet l <-> In ItMainnet l';
  sk_liquid : In ItLiquid l <-> In ItLiquid l'
}.

(** No type has rights on two seals. *)
Definition one_right (l : list Item) : Prop :=
  forall ty s s', latest (owned l) (ty, s) = Some RVoid -> latest (owned l) (ty, s') = Some RVoid -> s = s'.

(** The same assignments, where rights of a type may be in another order *)
Definition same_assigns (a a' : Assignments) : Prop :=
  Forall2 (fun p q => fst p = fst q /\ ta_kind (snd p) = ta_kind (snd q) /\
             (ta_kind (snd p) <> KDeclarative -> ta_list (snd p) = ta_list (snd q)) /\
             Permutation (ta_list (snd p)) (ta_list (snd q))) a a'.
Definition same_but_rights (o o' : Operation) : Prop :=
  same_assigns (op_assigns o) (op_assigns o') /\
  o' = {| op_kind := op_kind o; op_head := op_head o; op_contract := op_contract o; op_ty := op_ty o; op_nonce := op_nonce o;
          op_meta := op_meta o; op_globals := op_globals o; op_inputs := op_inputs o; op_redeemed := op_redeemed o;
          op_assigns := op_assigns o'; op_valencies := op_valencies o |}.
Definition same_result {E A} (R : A -> A -> Prop) (r r' : result E A) : Prop :=
  match r, r' with
  | Ok a, Ok a' => R a a'
  | Err e, Err e' => e = e'
  | Panic, Panic => True
  | _, _ => False
  end.

(** ** Calls in another order *)

(** The same calls in another order, where none replaces what another one put in and the
    values of one global type keep their order *)
Record reordered (l l' : list Item) : Prop := {
  ro_perm : Permutation l l';
  ro_globals : forall ty, all_for (globals l) ty = all_for (globals l') ty;
  ro_owned : NoDup (map fst (owned l));
  ro_ins : NoDup (map fst (ins l));
  ro_tags : NoDup (map fst (tags l));
  ro_nonce : forall l1 n l2, l = l1 ++ ItNonce n :: l2 -> forall m, ~ In (ItNonce m) (l1 ++ l2)
}.

(** ** The same calls again *)

(** The methods which are allowed in a deterministic contract builder: no argument of them is
    drawn at random, except a tag for amounts of a type without one. *)
Definition det_call (c : CCall) : Prop :=
  match c with CFungible _ _ _ _ _ | CData _ _ _ _ | CAttachment _ _ _ _ => False | _ => True end.
(** The same call made twice, drawing two tags *)
Inductive called_again : CCall -> CCall -> Prop :=
| again_same c : det_call c -> called_again c c
| again_amount name s v b tag tag' : called_again (CFungibleDet name s v b tag) (CFungibleDet name s v b tag').
(** The calls of a builder, until the first which fails *)
Fixpoint c_run (X : BuildCtx) (b : CtBuilder) (cs : list CCall) : result BuilderError CtBuilder :=
  match cs with [] => Ok b | c :: cs' => let! b' := c_call X b c in c_run X b' cs' end.
(** Each amount comes after the tag of its type. *)
Definition tags_first (X : BuildCtx) (cs : list CCall) : Prop :=
  forall before name s v b tag after, cs = before ++ CFungibleDet name s v b tag :: after ->
    exists name' tag', In (CAssetTag name' tag') before /\ assigns_type X name' = assigns_type X name.
