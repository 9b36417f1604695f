(** * What the source text of an interface is expected to tell: C72 *)
From Coq Require Import Ascii String.
From Verif Require Import Base Str IfaceModel SourceModel.
Local Open Scope N_scope.

(** Names of fields, errors and interfaces: letters, digits and underscores, at least one *)
Definition word_char (c : ascii) : bool :=
  let n := N_of_ascii c in
  ((48 <=? n) && (n <=? 57)) || ((65 <=? n) && (n <=? 90)) || ((97 <=? n) && (n <=? 122)) || (n =? 95).
Definition word (s : str) : Prop := s <> [] /\ Forall (fun c => word_char c = true) s.
(** Texts within one line *)
Definition one_line (s : str) : Prop := ~ In nl s.

(** How many times something may occur, at least and at most; counts are of 16 bits *)
Definition occ_means (o : Occurrences) : N * N :=
  match o with
  | Once => (1, 1)
  | NoneOrOnce => (0, 1)
  | NoneOrMore => (0, 65535)
  | OnceOrMore => (1, 65535)
  | NoneOrUpTo n => (0, n)
  | OnceOrUpTo n => (1, n)
  | Exactly n => (n, n)
  | Range a b => (a, b)
  end.

(** An interface with the occurrences by what they mean: "one or up to five" and "from one to five"
    are the same *)
Definition args_mean {A B} (m : A -> B) (l : list (str * A)) : list (str * B) := map (fun p => (fst p, m (snd p))) l.
Definition op_mean {A B} (m : A -> B) (o : SrcOp A) : SrcOp B :=
  {| so_modifier := so_modifier o; so_metadata := so_metadata o; so_globals := args_mean m (so_globals o);
     so_assigns := args_mean m (so_assigns o); so_valencies := so_valencies o; so_errors := so_errors o |}.
Definition iface_mean {A B} (m : A -> B) (f : SrcIface A) : SrcIface B :=
  {| sf_version := sf_version f; sf_name := sf_name f; sf_inherits := sf_inherits f; sf_timestamp := sf_timestamp f;
     sf_metadata := sf_metadata f; sf_globals := sf_globals f; sf_assigns := sf_assigns f; sf_valencies := sf_valencies f;
     sf_genesis := op_mean m (sf_genesis f);
     sf_transitions := map (fun p => (fst p, {| st_op := op_mean m (st_op (snd p)); st_optional := st_optional (snd p);
         st_inputs := args_mean m (st_inputs (snd p)); st_default := st_default (snd p) |})) (sf_transitions f);
     sf_extensions := map (fun p => (fst p, {| se_op := op_mean m (se_op (snd p)); se_optional := se_optional (snd p);
         se_redeems := se_redeems (snd p); se_default := se_default (snd p) |})) (sf_extensions f);
     sf_default := sf_default f; sf_errors := sf_errors f; sf_developer := sf_developer f |}.
Definition meaning : SrcIface Occurrences -> SrcIface (N * N) := iface_mean occ_means.

(** Texts of ids tell ids apart; ids of interfaces are not names (they are printed in chunks);
    named types have a dot in their names ("Library.Type"); no two types have one name. *)
Definition ids_ok (v : SrcEnv) : Prop :=
  (forall a b, sv_iface_bare v a = sv_iface_bare v b -> a = b) /\
  (forall a, one_line (sv_iface_bare v a) /\ ~ In ","%char (sv_iface_bare v a) /\ ~ word (sv_iface_bare v a)) /\
  (forall a b, sv_sem v a = sv_sem v b -> a = b) /\ (forall a b, sv_sem_bare v a = sv_sem_bare v b -> a = b) /\
  (forall a, one_line (sv_sem v a) /\ ~ In " "%char (sv_sem v a)) /\
  (forall a, one_line (sv_sem_bare v a) /\ ~ In " "%char (sv_sem_bare v a)) /\
  (forall a b t, sv_types v a = Some t -> sv_types v b = Some t -> a = b) /\
  (forall a t, sv_types v a = Some t -> one_line t /\ ~ In " "%char t /\ In "."%char t).

(** The names by which interfaces are known are names, and of one interface each *)
Definition externals_named (v : SrcEnv) : Prop := forall a n, sv_externals v a = Some n -> word n.
Definition externals_distinct (v : SrcEnv) : Prop :=
  forall a b n, sv_externals v a = Some n -> sv_externals v b = Some n -> a = b.

(** The names in an interface are names; its developer is within one line *)
Definition names_ok {O} (l : list (str * O)) : Prop := Forall (fun p => word (fst p)) l.
Definition op_ok {O} (o : SrcOp O) : Prop :=
  Forall word (so_metadata o) /\ names_ok (so_globals o) /\ names_ok (so_assigns o) /\
  Forall word (so_valencies o) /\ Forall word (so_errors o).
Definition option_ok (d : option str) : Prop := match d with Some n => word n | None => True end.
Definition names_are_names {O} (f : SrcIface O) : Prop :=
  word (sf_name f) /\ names_ok (sf_metadata f) /\ names_ok (sf_globals f) /\ names_ok (sf_assigns f) /\
  names_ok (sf_valencies f) /\ names_ok (sf_errors f) /\ op_ok (sf_genesis f) /\
  Forall (fun p => word (fst p) /\ op_ok (st_op (snd p)) /\ names_ok (st_inputs (snd p)) /\ option_ok (st_default (snd p))) (sf_transitions f) /\
  Forall (fun p => word (fst p) /\ op_ok (se_op (snd p)) /\ Forall word (se_redeems (snd p)) /\ option_ok (se_default (snd p))) (sf_extensions f) /\
  one_line (sf_developer f).
(** Its default operation is one of its operations (checked by [Iface::check], C41) *)
Definition default_exists {O} (f : SrcIface O) : Prop :=
  forall d, sf_default f = Some d -> In d (map fst (sf_transitions f)) \/ In d (map fst (sf_extensions f)).
(** The descriptions of its errors are within one line *)
Definition descriptions_ok {O} (f : SrcIface O) : Prop := Forall (fun p => one_line (snd p)) (sf_errors f).
