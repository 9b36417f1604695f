(** * C72: the source text of an interface shows what it declares *)
From Coq Require Import Ascii String.
From Verif Require Import Base Str IfaceModel SourceModel SourceSpec SourceProofs.
Local Open Scope N_scope.

(** Interfaces with the same source declare the same: version, name, parents, time, developer,
    metadata, global and owned state with types, valencies, errors with descriptions, operations
    with all their arguments and modifiers, and the default operation.  (The text of the id is
    printed, too; nothing is assumed of it but that it is within one line, so this does not rest on
    ids telling interfaces apart.)  Missing: descriptions of errors over several lines, parents with
    one name, default operations which do not exist; all three are refuted below. *)
Theorem C72_shows_partial : forall v id id' f g,
  ids_ok v -> externals_named v -> externals_distinct v -> one_line id -> one_line id' ->
  names_are_names f -> default_exists f -> descriptions_ok f ->
  names_are_names g -> default_exists g -> descriptions_ok g ->
  source v id f = source v id' g -> id = id' /\ meaning f = meaning g.
Proof. exact source_inj. Qed.
Print Assumptions C72_shows_partial.

(** *** Examples *)

Definition sr_env (two : bool) : SrcEnv :=
  {| sv_externals := fun i => if i =? 7 then Some (lit "Fixed") else if two && (i =? 8) then Some (lit "Fixed") else None;
     sv_types := fun i => if i <? 10 then Some (lit "RGBContract.T" ++ dec_print i) else None;
     sv_iface_bare := fun i => lit "x-" ++ dec_print i; sv_sem := fun i => lit "semid:" ++ dec_print i;
     sv_sem_bare := fun i => dec_print i; sv_anonymous := lit "ssi:anonymous" |}.

Lemma sr_char c s n : ~ In c s -> is_digit c = false -> ~ In c (s ++ dec_print n).
Proof.
  intros Hs Hd Hi. apply in_app_or in Hi as [Hi|Hi]; [exact (Hs Hi)|]. pose proof (dec_print_digits n) as F. rewrite Forall_forall in F. rewrite (F _ Hi) in Hd. discriminate Hd.
Qed.
Lemma sr_ids two : ids_ok (sr_env two).
Proof.
  assert (L : forall (c : ascii) (s : str), existsb (is_char c) s = false -> ~ In c s).
  { intros c s E Hi. apply not_true_iff_false in E. apply E. apply existsb_exists. exists c. split; [exact Hi|apply is_char_refl]. }
  cbv [ids_ok sr_env sv_externals sv_types sv_iface_bare sv_sem sv_sem_bare].
  split; [intros a b E; apply app_inv_head in E; exact (dec_print_inj _ _ E)|].
  split; [intros a; split; [|split]|].
  { apply (sr_char nl (lit "x-")); [apply L|]; reflexivity. }
  { apply (sr_char ","%char (lit "x-")); [apply L|]; reflexivity. }
  { intros [_ W]. apply Forall_inv_tail, Forall_inv in W. cbn in W. discriminate W. }
  split; [intros a b E; apply app_inv_head in E; exact (dec_print_inj _ _ E)|]. split; [intros a b E; exact (dec_print_inj _ _ E)|].
  split; [intros a; split; [apply (sr_char nl (lit "semid:"))|apply (sr_char " "%char (lit "semid:"))]; [apply L| |apply L|]; reflexivity|].
  split; [intros a; split; [apply (sr_char nl [])|apply (sr_char " "%char [])]; [apply L| |apply L|]; reflexivity|].
  split.
  - intros a b t Ea Eb. destruct (a <? 10), (b <? 10); try discriminate. assert (E : lit "RGBContract.T" ++ dec_print a = lit "RGBContract.T" ++ dec_print b) by congruence.
    apply app_inv_head in E. exact (dec_print_inj _ _ E).
  - intros a t Ea. destruct (a <? 10); [|discriminate]. apply Some_inj in Ea as <-. split; [|split].
    + apply (sr_char nl (lit "RGBContract.T")); [apply L|]; reflexivity.
    + apply (sr_char " "%char (lit "RGBContract.T")); [apply L|]; reflexivity.
    + apply in_or_app. left. do 11 right. left. reflexivity.
Qed.

Definition sr_op : SrcOp Occurrences :=
  {| so_modifier := MFinal; so_metadata := []; so_globals := []; so_assigns := []; so_valencies := []; so_errors := [] |}.
Definition sr_iface (inherits : list N) (default : option str) (errors : list (str * str)) : SrcIface Occurrences :=
  {| sf_version := V1; sf_name := lit "Inflatable"; sf_inherits := inherits; sf_timestamp := 1711405444%Z;
     sf_metadata := [(lit "moreErrors", 3)]; sf_globals := [(lit "issuedSupply", {| gi_sem := Some 4; gi_required := true; gi_multiple := true |})];
     sf_assigns := [(lit "inflationAllowance", {| ai_state := OiAmount; ai_public := true; ai_required := false; ai_multiple := true |})];
     sf_valencies := [(lit "decentralized", false)];
     sf_genesis := {| so_modifier := MOverride; so_metadata := []; so_globals := [(lit "issuedSupply", Once)]; so_assigns := [(lit "inflationAllowance", NoneOrMore)];
                      so_valencies := []; so_errors := [lit "supplyMismatch"] |};
     sf_transitions := [(lit "issue", {| st_op := sr_op; st_optional := true; st_inputs := [(lit "inflationAllowance", OnceOrUpTo 5)]; st_default := Some (lit "assetOwner") |})];
     sf_extensions := [(lit "mint", {| se_op := sr_op; se_optional := false; se_redeems := [lit "decentralized"]; se_default := None |})];
     sf_default := default; sf_errors := errors; sf_developer := lit "ssi:LZS1ux" |}.

Lemma sr_word s : forallb word_char s = true -> s <> [] -> word s.
Proof. intros H Hs. split; [exact Hs|]. apply Forall_forall. apply forallb_forall. exact H. Qed.
Lemma sr_names inherits default errors : names_ok errors -> names_are_names (sr_iface inherits default errors).
Proof.
  intros He. unfold names_are_names, op_ok, names_ok, option_ok. cbn [sr_iface sr_op sf_name sf_metadata sf_globals sf_assigns sf_valencies sf_errors sf_genesis sf_transitions sf_extensions sf_developer
    so_metadata so_globals so_assigns so_valencies so_errors st_op st_inputs st_default se_op se_redeems se_default].
  assert (One : one_line (lit "ssi:LZS1ux")) by (intros Hi; cbn in Hi; intuition discriminate).
  repeat match goal with
  | |- _ /\ _ => match goal with |- word _ /\ Forall _ _ => fail 1 | _ => split end
  | |- Forall _ [] => constructor
  | |- Forall _ (_ :: _) => constructor
  | |- word _ => apply sr_word; [reflexivity|discriminate]
  | |- True => exact Logic.I
  | _ => assumption
  end; cbn [fst snd st_op st_inputs st_default se_op se_redeems se_default so_metadata so_globals so_assigns so_valencies so_errors sr_op];
  repeat match goal with
  | |- _ /\ _ => split
  | |- Forall _ [] => constructor
  | |- Forall _ (_ :: _) => constructor
  | |- word _ => apply sr_word; [reflexivity|discriminate]
  | |- True => exact Logic.I
  | _ => assumption
  end.
Qed.
Lemma sr_external two : externals_named (sr_env two) /\ externals_distinct (sr_env false).
Proof.
  split.
  - intros a n E. cbn [sr_env sv_externals] in E. assert (W : word (lit "Fixed")) by (apply sr_word; [reflexivity|discriminate]).
    destruct (a =? 7); [apply Some_inj in E as <-; exact W|]. destruct (two && (a =? 8)); [apply Some_inj in E as <-; exact W|discriminate E].
  - intros a b n Ea Eb. cbn [sr_env sv_externals andb] in Ea, Eb. destruct (a =? 7) eqn:A, (b =? 7) eqn:B; try discriminate. apply N.eqb_eq in A, B. congruence.
Qed.
Lemma sr_default inherits errors : default_exists (sr_iface inherits (Some (lit "issue")) errors).
Proof. intros d E. apply Some_inj in E as <-. left. left. reflexivity. Qed.
Lemma sr_default_none inherits errors : default_exists (sr_iface inherits None errors).
Proof. intros d E. discriminate E. Qed.

Definition sr_errors : list (str * str) := [(lit "supplyMismatch", lit "supply specified as a global parameter doesn't match"); (lit "unknown", lit "no such proof")].

Definition unwords (l : list str) : str := flat_map (fun s => s ++ [nl]) l.
Definition T1 (s : str) : str := tab :: s.
Definition T2 (s : str) : str := tab :: tab :: s.

(** The conditions can be met, and the text is what one would write: *)
Example C72_nonvacuous :
  let f := sr_iface [7; 9] (Some (lit "issue")) sr_errors in
  ids_ok (sr_env false) /\ externals_named (sr_env false) /\ externals_distinct (sr_env false) /\
  names_are_names f /\ default_exists f /\ descriptions_ok f /\
  source (sr_env false) (lit "rgb:ifc:abc") f = unwords [
    lit "@version(1)"; lit "@id(rgb:ifc:abc)"; lit "@developer(""ssi:LZS1ux"")"; lit "@timestamp(1711405444)";
    lit "interface Inflatable: Fixed, x-9"; [];
    T1 (lit "meta moreErrors: RGBContract.T3"); [];
    T1 (lit "global issuedSupply(+): RGBContract.T4"); [];
    T1 (lit "public inflationAllowance(*): Zk64"); [];
    T1 (lit "valency decentralized(?)"); [];
    T1 (lit "error supplyMismatch"); T2 (lit """supply specified as a global parameter doesn't match""");
    T1 (lit "error unknown"); T2 (lit """no such proof"""); [];
    T1 (lit "genesis: override"); T2 (lit "errors: supplyMismatch"); T2 (lit "globals: issuedSupply"); T2 (lit "assigns: inflationAllowance(*)"); [];
    T1 (lit "transition issue: default, final"); T2 (lit "default: assetOwner"); T2 (lit "inputs: inflationAllowance(1..5)"); [];
    T1 (lit "extension mint: required, final"); T2 (lit "redeems: decentralized"); []].
Proof.
  cbv zeta. split; [apply sr_ids|]. split; [apply sr_external|]. split; [apply (sr_external false)|].
  split; [apply sr_names; repeat constructor; discriminate|]. split; [apply sr_default|].
  split; [|vm_compute; reflexivity].
  unfold descriptions_ok. repeat constructor; intros Hi; cbn in Hi; intuition discriminate.
Qed.

(** The description of an error is printed as it is, so it can pass for other declarations: here an
    interface with one error shows the same as one with two. *)
Theorem C72_description_refuted : exists v f g,
  ids_ok v /\ externals_named v /\ externals_distinct v /\
  names_are_names f /\ default_exists f /\ names_are_names g /\ default_exists g /\
  meaning f <> meaning g /\ forall id, source v id f = source v id g.
Proof.
  exists (sr_env false), (sr_iface [] None sr_errors).
  exists (sr_iface [] None [(lit "supplyMismatch", lit "supply specified as a global parameter doesn't match""" ++ [nl; tab] ++ lit "error unknown" ++ [nl; tab; tab] ++ lit """no such proof")]).
  split; [apply sr_ids|]. split; [apply sr_external|]. split; [apply (sr_external false)|].
  split; [apply sr_names; repeat constructor; discriminate|]. split; [apply sr_default_none|].
  split; [apply sr_names; repeat constructor; discriminate|]. split; [apply sr_default_none|]. split.
  - intros E. apply (f_equal sf_errors) in E. discriminate E.
  - intros id. unfold source, head_text. rewrite <- !app_assoc. repeat f_equal.
Qed.
Print Assumptions C72_description_refuted.

(** Parents are shown by name when a name is known for them, and interfaces of one name are not told
    apart (see also C60_inherits_refuted). *)
Theorem C72_parents_refuted : exists v f g,
  ids_ok v /\ externals_named v /\
  names_are_names f /\ default_exists f /\ descriptions_ok f /\ names_are_names g /\ default_exists g /\ descriptions_ok g /\
  meaning f <> meaning g /\ forall id, source v id f = source v id g.
Proof.
  exists (sr_env true), (sr_iface [7] None []), (sr_iface [8] None []).
  split; [apply sr_ids|]. split; [apply sr_external|].
  split; [apply sr_names; constructor|]. split; [apply sr_default_none|]. split; [constructor|].
  split; [apply sr_names; constructor|]. split; [apply sr_default_none|]. split; [constructor|]. split.
  - intros E. apply (f_equal sf_inherits) in E. discriminate E.
  - intros id. reflexivity.
Qed.
Print Assumptions C72_parents_refuted.

(** A default operation which does not exist (C41) is not shown. *)
Theorem C72_default_refuted : exists v f g,
  ids_ok v /\ externals_named v /\ externals_distinct v /\
  names_are_names f /\ descriptions_ok f /\ names_are_names g /\ descriptions_ok g /\
  meaning f <> meaning g /\ forall id, source v id f = source v id g.
Proof.
  exists (sr_env false), (sr_iface [] None []), (sr_iface [] (Some (lit "burn")) []).
  split; [apply sr_ids|]. split; [apply sr_external|]. split; [apply (sr_external false)|].
  split; [apply sr_names; constructor|]. split; [constructor|].
  split; [apply sr_names; constructor|]. split; [constructor|]. split.
  - intros E. apply (f_equal sf_default) in E. discriminate E.
  - intros id. reflexivity.
Qed.
Print Assumptions C72_default_refuted.
