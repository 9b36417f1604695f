(** * The source text of an interface: proofs for C72 *)
From Coq Require Import Ascii String.
From Verif Require Import Base Str IfaceModel SourceModel SourceSpec.
Local Open Scope N_scope.

(** ** Texts *)

Lemma cut (c : ascii) (a a' b b' : str) : ~ In c a -> ~ In c a' -> a ++ c :: b = a' ++ c :: b' -> a = a' /\ b = b'.
Proof.
  intros Ha Ha' Eq. pose proof (split_once_app c a b Ha) as E. rewrite Eq, (split_once_app c a' b' Ha') in E.
  injection E as -> ->. split; reflexivity.
Qed.

Lemma word_not (c : ascii) s : word_char c = false -> word s -> ~ In c s.
Proof. intros Hc [_ Hs] Hi. rewrite Forall_forall in Hs. rewrite (Hs _ Hi) in Hc. discriminate Hc. Qed.

Lemma span_inj (p : ascii -> bool) a a' b b' :
  Forall (fun c => p c = true) a -> Forall (fun c => p c = true) a' ->
  match b with [] => True | c :: _ => p c = false end ->
  match b' with [] => True | c :: _ => p c = false end ->
  a ++ b = a' ++ b' -> a = a' /\ b = b'.
Proof.
  revert a'. induction a as [|x a IH]; intros a' Ha Ha' Hb Hb' Eq; destruct a' as [|y a']; cbn [app] in Eq.
  - split; [reflexivity|exact Eq].
  - subst b. inversion Ha' as [|? ? Hy _]; subst. congruence.
  - subst b'. inversion Ha as [|? ? Hx _]; subst. congruence.
  - injection Eq as -> Eq. inversion Ha; inversion Ha'; subst. destruct (IH a') as [-> ->]; auto.
Qed.

Lemma join_nil_word (l : list str) : Forall (fun s => s <> []) l -> join (lit ", ") l = [] -> l = [].
Proof.
  destruct l as [|a [|b l]]; intros F Eq; [reflexivity| |].
  - cbn in Eq. subst a. apply Forall_inv in F. congruence.
  - apply Forall_inv in F. cbn [join] in Eq. apply app_eq_nil in Eq as [Eq _]. congruence.
Qed.

Lemma join_comma_inj l l' :
  Forall (fun s => s <> [] /\ ~ In ","%char s) l -> Forall (fun s => s <> [] /\ ~ In ","%char s) l' ->
  join (lit ", ") l = join (lit ", ") l' -> l = l'.
Proof.
  revert l'. induction l as [|a l IH]; intros l' F F' Eq.
  - symmetry in Eq. apply join_nil_word in Eq; [symmetry; exact Eq|]. eapply Forall_impl; [|exact F']. intros s [Hs _]. exact Hs.
  - destruct l' as [|a' l'].
    { apply join_nil_word in Eq; [congruence|]. eapply Forall_impl; [|exact F]. intros s [Hs _]. exact Hs. }
    pose proof (Forall_inv F) as [Na Ca]. pose proof (Forall_inv F') as [Na' Ca']. pose proof (Forall_inv_tail F) as Ft. pose proof (Forall_inv_tail F') as Ft'.
    destruct l as [|b l], l' as [|b' l'].
    + cbn in Eq. congruence.
    + change (a = a' ++ ","%char :: " "%char :: join (lit ", ") (b' :: l')) in Eq. exfalso. apply Ca. rewrite Eq. apply in_or_app. right. left. reflexivity.
    + change (a ++ ","%char :: " "%char :: join (lit ", ") (b :: l) = a') in Eq. exfalso. apply Ca'. rewrite <- Eq. apply in_or_app. right. left. reflexivity.
    + change (a ++ ","%char :: " "%char :: join (lit ", ") (b :: l) = a' ++ ","%char :: " "%char :: join (lit ", ") (b' :: l')) in Eq.
      destruct (cut _ _ _ _ _ Ca Ca' Eq) as [-> E2]. injection E2 as E2. f_equal. exact (IH (b' :: l') Ft Ft' E2).
Qed.

Lemma names_inj l l' : Forall word l -> Forall word l' -> names_text l = names_text l' -> l = l'.
Proof.
  intros F F'. apply join_comma_inj; (eapply Forall_impl; [|eassumption]); intros s Hs; (split; [exact (proj1 Hs)|exact (word_not ","%char s eq_refl Hs)]).
Qed.

Lemma digits_inj n n' b b' :
  match b with [] => True | c :: _ => is_digit c = false end -> match b' with [] => True | c :: _ => is_digit c = false end ->
  dec_print n ++ b = dec_print n' ++ b' -> n = n' /\ b = b'.
Proof.
  intros Hb Hb' Eq. destruct (span_inj is_digit _ _ _ _ (dec_print_digits n) (dec_print_digits n') Hb Hb' Eq) as [E ->].
  split; [exact (dec_print_inj _ _ E)|reflexivity].
Qed.

Lemma dec_cons n : exists c s, dec_print n = c :: s /\ is_digit c = true.
Proof.
  pose proof (dec_print_digits n) as F. pose proof (dec_print_nonempty n) as Ne. destruct (dec_print n) as [|c s]; [congruence|].
  exists c, s. split; [reflexivity|exact (Forall_inv F)].
Qed.

Lemma occ_head o : match occ_text o with [] => True | c :: _ => word_char c = false end.
Proof. destruct o; exact Logic.I || reflexivity. Qed.

Definition occ_pre (o : Occurrences) : str :=
  match o with OnceOrUpTo _ => dec_print 1 | Exactly n | Range n _ => dec_print n | _ => [] end.
Definition occ_tail (o : Occurrences) : str :=
  match o with
  | Once => [] | NoneOrOnce => lit "?)" | NoneOrMore => lit "*)" | OnceOrMore => lit "+)" | Exactly _ => lit ")"
  | NoneOrUpTo n | OnceOrUpTo n | Range _ n => lit ".." ++ dec_print n ++ lit ")"
  end.

Lemma occ_split o : o = Once \/ occ_text o = lit "(" ++ occ_pre o ++ occ_tail o.
Proof. destruct o; [left; reflexivity|right..]; reflexivity. Qed.

Lemma occ_inj o o' : occ_text o = occ_text o' -> occ_means o = occ_means o'.
Proof.
  intros Eq. destruct (occ_split o) as [-> |E], (occ_split o') as [-> |E'].
  - reflexivity.
  - rewrite E' in Eq. discriminate Eq.
  - rewrite E in Eq. discriminate Eq.
  - rewrite E, E' in Eq. apply app_inv_head in Eq. clear E E'.
    assert (D : forall x, Forall (fun c => is_digit c = true) (occ_pre x)) by (intros [| | | | | | |]; cbn [occ_pre]; first [exact (Forall_nil _)|apply dec_print_digits]).
    assert (T : forall x, match occ_tail x with [] => True | c :: _ => is_digit c = false end) by (intros [| | | | | | |]; exact Logic.I || reflexivity).
    destruct (span_inj is_digit _ _ _ _ (D o) (D o') (T o) (T o') Eq) as [Ep Et]. clear D T Eq.
    assert (L : forall n n' : N, lit ".." ++ dec_print n ++ lit ")" = lit ".." ++ dec_print n' ++ lit ")" -> n = n').
    { intros n n' E. apply app_inv_head in E. apply digits_inj in E; [exact (proj1 E)|reflexivity|reflexivity]. }
    destruct o as [| | | |n|n|n|a b], o' as [| | | |n'|n'|n'|a' b']; cbn [occ_pre occ_tail occ_means] in *;
      try reflexivity; try discriminate Et;
      try (exfalso; match type of Ep with [] = _ => symmetry in Ep | _ => idtac end; exact (dec_print_nonempty _ Ep));
      try (apply L in Et; subst); try (apply dec_print_inj in Ep; subst); try reflexivity.
Qed.

Lemma args_inj l l' : names_ok l -> names_ok l' -> args_text l = args_text l' -> args_mean occ_means l = args_mean occ_means l'.
Proof.
  intros F F' Eq.
  assert (G : forall x : list (str * Occurrences), names_ok x -> Forall (fun s => s <> [] /\ ~ In ","%char s) (map (fun p => fst p ++ occ_text (snd p)) x)).
  { intros x Fx. apply Forall_forall. intros s Hs. apply in_map_iff in Hs as (p & <- & Hp). pose proof (proj1 (Forall_forall _ _) Fx p Hp) as W. split.
    - intros E. apply app_eq_nil in E as [E _]. exact (proj1 W E).
    - intros Hi. apply in_app_or in Hi as [Hi|Hi]; [exact (word_not ","%char _ eq_refl W Hi)|].
      assert (Nd : forall n, ~ In ","%char (dec_print n)).
      { intros n Hn. pose proof (dec_print_digits n) as Fd. rewrite Forall_forall in Fd. specialize (Fd _ Hn). discriminate Fd. }
      destruct (snd p); cbn [occ_text] in Hi; repeat (apply in_app_or in Hi as [Hi|Hi]); try (exact (Nd _ Hi)); cbn in Hi; intuition discriminate. }
  apply join_comma_inj in Eq; [|exact (G l F)|exact (G l' F')]. clear G.
  revert l' F' Eq. induction l as [|p l IH]; intros [|p' l'] F' Eq; try discriminate Eq; [reflexivity|].
  cbn [map] in Eq. injection Eq as E1 E2. cbn [args_mean map].
  destruct (span_inj word_char _ _ _ _ (proj2 (Forall_inv F)) (proj2 (Forall_inv F')) (occ_head (snd p)) (occ_head (snd p')) E1) as [-> Eo].
  rewrite (occ_inj _ _ Eo). f_equal. exact (IH (Forall_inv_tail F) l' (Forall_inv_tail F') E2).
Qed.

(** ** Lines *)

Inductive kind := KGenesis | KTransition (n : str) | KExtension (n : str).
Inductive line {O : Type} :=
| LBlank | LMeta (n : str) (t : N) | LGlobal (n : str) (g : GlobalIface) | LAssign (n : str) (a : AssignIface)
| LValency (n : str) (required : bool) | LError (n : str) | LDescr (d : str)
| LOp (k : kind) (m : Modifier) (optional default : bool)
| LErrors (l : list str) | LMetas (l : list str) | LGlobals (l : list (str * O)) | LValencies (l : list str)
| LAssigns (l : list (str * O)) | LDefault (d : str) | LInputs (l : list (str * O)) | LRedeems (l : list str).
Arguments line : clear implicits.

Definition line_mean {A B} (m : A -> B) (l : line A) : line B :=
  match l with
  | LBlank => LBlank | LMeta n t => LMeta n t | LGlobal n g => LGlobal n g | LAssign n a => LAssign n a
  | LValency n r => LValency n r | LError n => LError n | LDescr d => LDescr d
  | LOp k o op d => LOp k o op d
  | LErrors l => LErrors l | LMetas l => LMetas l | LGlobals l => LGlobals (args_mean m l) | LValencies l => LValencies l
  | LAssigns l => LAssigns (args_mean m l) | LDefault d => LDefault d | LInputs l => LInputs (args_mean m l) | LRedeems l => LRedeems l
  end.

Definition is_nil {A} (l : list A) : bool := match l with [] => true | _ => false end.
Definition some_line {A B} (l : list A) (x : line B) : list (line B) := if is_nil l then [] else [x].

Definition op_lines {O} (o : SrcOp O) : list (line O) :=
  some_line (so_errors o) (LErrors (so_errors o)) ++ some_line (so_metadata o) (LMetas (so_metadata o)) ++
  some_line (so_globals o) (LGlobals (so_globals o)) ++ some_line (so_valencies o) (LValencies (so_valencies o)) ++
  some_line (so_assigns o) (LAssigns (so_assigns o)).
Definition default_lines {O} (d : option str) : list (line O) := match d with Some d => [LDefault d] | None => [] end.
Definition transition_lines {O} (d : option str) (p : str * SrcTransition O) : list (line O) :=
  [LOp (KTransition (fst p)) (so_modifier (st_op (snd p))) (st_optional (snd p)) (is_default d (fst p))] ++
  op_lines (st_op (snd p)) ++ default_lines (st_default (snd p)) ++ [LInputs (st_inputs (snd p)); LBlank].
Definition extension_lines {O} (d : option str) (p : str * SrcExtension O) : list (line O) :=
  [LOp (KExtension (fst p)) (so_modifier (se_op (snd p))) (se_optional (snd p)) (is_default d (fst p))] ++
  op_lines (se_op (snd p)) ++ default_lines (se_default (snd p)) ++ [LRedeems (se_redeems (snd p)); LBlank].
Definition lines {O} (f : SrcIface O) : list (line O) :=
  map (fun p => LMeta (fst p) (snd p)) (sf_metadata f) ++ some_line (sf_metadata f) LBlank ++
  map (fun p => LGlobal (fst p) (snd p)) (sf_globals f) ++ [LBlank] ++
  map (fun p => LAssign (fst p) (snd p)) (sf_assigns f) ++ some_line (sf_assigns f) LBlank ++
  map (fun p => LValency (fst p) (snd p)) (sf_valencies f) ++ some_line (sf_valencies f) LBlank ++
  flat_map (fun p => [LError (fst p); LDescr (snd p)]) (sf_errors f) ++ some_line (sf_errors f) LBlank ++
  [LOp KGenesis (so_modifier (sf_genesis f)) true false] ++ op_lines (sf_genesis f) ++ [LBlank] ++
  flat_map (transition_lines (sf_default f)) (sf_transitions f) ++ flat_map (extension_lines (sf_default f)) (sf_extensions f).

Section Print.
Context (v : SrcEnv).

Definition mods (m : Modifier) (optional default : bool) : list str :=
  (if optional then [] else [lit "required"]) ++ (if default then [lit "default"] else []) ++ [modifier_text m].
Definition kind_text (k : kind) : str :=
  match k with KGenesis => lit "genesis" | KTransition n => lit "transition " ++ n | KExtension n => lit "extension " ++ n end.
Definition meta_type (t : N) : str := match sv_types v t with Some fqn => fqn | None => sv_sem v t ++ lit " -- type name is unknown" end.
Definition global_type (t : option N) : str := match t with Some id => resolve v id | None => lit "Any" end.
Definition owned_type (t : OwnedIface) : str :=
  match t with
  | OiAny => lit "AnyType" | OiAmount => lit "Zk64" | OiAnyData => lit "Any"
  | OiAnyAttach => lit "AnyAttachment" | OiRights => lit "Rights" | OiData id => resolve v id
  end.

Definition print (l : line Occurrences) : str :=
  match l with
  | LBlank => []
  | LMeta n t => [tab] ++ lit "meta " ++ n ++ lit ": " ++ meta_type t
  | LGlobal n g => [tab] ++ lit "global " ++ (n ++ sugar (gi_required g) (gi_multiple g)) ++ lit ": " ++ global_type (gi_sem g)
  | LAssign n a => [tab] ++ (if ai_public a then lit "public " else lit "owned ") ++ (n ++ sugar (ai_required a) (ai_multiple a)) ++ lit ": " ++ owned_type (ai_state a)
  | LValency n r => [tab] ++ lit "valency " ++ n ++ (if r then [] else lit "(?)")
  | LError n => [tab] ++ lit "error " ++ n
  | LDescr d => [tab; tab] ++ lit """" ++ d ++ lit """"
  | LOp k m o d => [tab] ++ kind_text k ++ lit ": " ++ names_text (mods m o d)
  | LErrors l => [tab; tab] ++ lit "errors: " ++ names_text l
  | LMetas l => [tab; tab] ++ lit "meta: " ++ names_text l
  | LGlobals l => [tab; tab] ++ lit "globals: " ++ args_text l
  | LValencies l => [tab; tab] ++ lit "valencies: " ++ names_text l
  | LAssigns l => [tab; tab] ++ lit "assigns: " ++ args_text l
  | LDefault d => [tab; tab] ++ lit "default: " ++ d
  | LInputs l => [tab; tab] ++ lit "inputs: " ++ args_text l
  | LRedeems l => [tab; tab] ++ lit "redeems: " ++ names_text l
  end.

Definition unlines (l : list (line Occurrences)) : str := flat_map (fun x => print x ++ [nl]) l.

Lemma unlines_app a b : unlines (a ++ b) = unlines a ++ unlines b.
Proof. apply flat_map_app. Qed.
Lemma unlines_flat {A} (f : A -> str) (g : A -> list (line Occurrences)) l :
  (forall x, f x = unlines (g x)) -> flat_map f l = unlines (flat_map g l).
Proof. intros Hf. induction l as [|a l IH]; [reflexivity|]. cbn [flat_map]. rewrite unlines_app, Hf, IH. reflexivity. Qed.
Lemma unlines_map {A} (f : A -> str) (g : A -> line Occurrences) l :
  (forall x, f x = print (g x) ++ [nl]) -> flat_map f l = unlines (map g l).
Proof. intros Hf. induction l as [|a l IH]; [reflexivity|]. cbn [flat_map map unlines]. rewrite Hf, IH. reflexivity. Qed.
Lemma unlines_some {A} (l : list A) s x : s = print x ++ [nl] -> unless_empty l s = unlines (some_line l x).
Proof. intros ->. destruct l; cbn; [reflexivity|]. rewrite app_nil_r. reflexivity. Qed.

Lemma opsugar_line pred name m o d k : kind_text k = pred ++ match name with Some n => lit " " ++ n | None => [] end ->
  opsugar pred name m o d = unlines [LOp k m o d].
Proof.
  intros Hk. cbn [unlines flat_map print]. rewrite Hk, app_nil_r. unfold opsugar. fold (mods m o d). rewrite <- !app_assoc.
  replace (unless_empty (mods m o d) (lit ": ")) with (lit ": ") by (destruct o, d; reflexivity). reflexivity.
Qed.

Lemma op_text_lines o : op_text o = unlines (op_lines o).
Proof.
  unfold op_text, op_lines. rewrite !unlines_app. repeat f_equal; apply unlines_some; cbn [print]; rewrite <- ?app_assoc; reflexivity.
Qed.
Lemma default_text_lines d : default_text d = unlines (default_lines d).
Proof. destruct d; cbn [default_text default_lines unlines flat_map print]; [|reflexivity]. rewrite <- ?app_assoc. reflexivity. Qed.

Lemma body_lines f : body_text v f = unlines (lines f).
Proof.
  unfold body_text, lines. rewrite !unlines_app.
  rewrite (unlines_map (metadata_text v) (fun p => LMeta (fst p) (snd p))) by (intros p; cbn [print]; unfold metadata_text; rewrite <- ?app_assoc; reflexivity).
  rewrite (unlines_map (global_text v) (fun p => LGlobal (fst p) (snd p))) by (intros p; cbn [print]; unfold global_text; rewrite <- ?app_assoc; reflexivity).
  rewrite (unlines_map (assign_text v) (fun p => LAssign (fst p) (snd p))) by (intros p; cbn [print]; unfold assign_text; rewrite <- ?app_assoc; reflexivity).
  rewrite (unlines_map valency_text (fun p => LValency (fst p) (snd p))) by (intros p; cbn [print]; unfold valency_text; rewrite <- ?app_assoc; reflexivity).
  rewrite (unlines_flat error_text (fun p => [LError (fst p); LDescr (snd p)])) by (intros p; cbn [print unlines flat_map]; unfold error_text; rewrite <- ?app_assoc; reflexivity).
  rewrite (unlines_flat (transition_text (sf_default f)) (transition_lines (sf_default f)))
    by (intros p; unfold transition_text, transition_lines; rewrite !unlines_app, (opsugar_line (lit "transition") (Some (fst p)) _ _ _ (KTransition (fst p)) eq_refl), op_text_lines, default_text_lines;
        cbn [unlines flat_map print]; rewrite <- ?app_assoc; reflexivity).
  rewrite (unlines_flat (extension_text (sf_default f)) (extension_lines (sf_default f)))
    by (intros p; unfold extension_text, extension_lines; rewrite !unlines_app, (opsugar_line (lit "extension") (Some (fst p)) _ _ _ (KExtension (fst p)) eq_refl), op_text_lines, default_text_lines;
        cbn [unlines flat_map print]; rewrite <- ?app_assoc; reflexivity).
  rewrite (opsugar_line (lit "genesis") None _ _ _ KGenesis eq_refl), op_text_lines.
  rewrite !(unlines_some _ [nl] LBlank) by reflexivity. reflexivity.
Qed.

(** ** Lines are told apart by their texts *)

Definition kind_ok (k : kind) : Prop := match k with KGenesis => True | KTransition n | KExtension n => word n end.
Definition line_ok (l : line Occurrences) : Prop :=
  match l with
  | LBlank => True
  | LMeta n _ | LGlobal n _ | LAssign n _ | LValency n _ | LError n | LDefault n => word n
  | LDescr d => one_line d
  | LOp k _ _ _ => kind_ok k
  | LErrors l | LMetas l | LValencies l | LRedeems l => Forall word l
  | LGlobals l | LAssigns l | LInputs l => names_ok l
  end.

Context (V : ids_ok v).

Lemma sugar_inj r m r' m' : sugar r m = sugar r' m' -> r = r' /\ m = m'.
Proof. destruct r, m, r', m'; intros Eq; try discriminate Eq; split; reflexivity. Qed.
Lemma sugar_head r m : match sugar r m with [] => True | c :: _ => word_char c = false end.
Proof. destruct r, m; exact Logic.I || reflexivity. Qed.

Lemma colon n n' b b' : ~ In ":"%char n -> ~ In ":"%char n' -> n ++ lit ": " ++ b = n' ++ lit ": " ++ b' -> n = n' /\ b = b'.
Proof. intros Hn Hn' Eq. destruct (cut ":"%char n n' _ _ Hn Hn' Eq) as [-> E]. injection E as E. split; [reflexivity|exact E]. Qed.
Lemma word_colon n : word n -> ~ In ":"%char n.
Proof. apply word_not. reflexivity. Qed.
Lemma sugared_colon n r m : word n -> ~ In ":"%char (n ++ sugar r m).
Proof. intros W Hi. apply in_app_or in Hi as [Hi|Hi]; [exact (word_colon n W Hi)|]. destruct r, m; cbn in Hi; intuition discriminate. Qed.

Lemma spaced a a' b b' : ~ In " "%char a -> ~ In " "%char a' -> a ++ " "%char :: b = a' ++ " "%char :: b' -> a = a' /\ b = b'.
Proof. apply cut. Qed.

Lemma resolve_inj a b : resolve v a = resolve v b -> a = b.
Proof.
  destruct V as (_ & _ & _ & Vs & _ & Vn & Vt & Vf). unfold resolve. destruct (sv_types v a) as [t|] eqn:Ea, (sv_types v b) as [t'|] eqn:Eb; intros Eq.
  - subst t'. exact (Vt a b t Ea Eb).
  - exfalso. destruct (Vf a t Ea) as (_ & Ns & _). apply Ns. rewrite Eq. apply in_or_app. right. left. reflexivity.
  - exfalso. destruct (Vf b t' Eb) as (_ & Ns & _). apply Ns. rewrite <- Eq. apply in_or_app. right. left. reflexivity.
  - apply app_inv_tail in Eq. exact (Vs a b Eq).
Qed.
Lemma meta_type_inj a b : meta_type a = meta_type b -> a = b.
Proof.
  destruct V as (_ & _ & Vs & _ & Vn & _ & Vt & Vf). unfold meta_type. destruct (sv_types v a) as [t|] eqn:Ea, (sv_types v b) as [t'|] eqn:Eb; intros Eq.
  - subst t'. exact (Vt a b t Ea Eb).
  - exfalso. destruct (Vf a t Ea) as (_ & Ns & _). apply Ns. rewrite Eq. apply in_or_app. right. left. reflexivity.
  - exfalso. destruct (Vf b t' Eb) as (_ & Ns & _). apply Ns. rewrite <- Eq. apply in_or_app. right. left. reflexivity.
  - apply app_inv_tail in Eq. exact (Vs a b Eq).
Qed.
(** A type is not one of the words for any type *)
Lemma resolve_not a s : ~ In "."%char s -> ~ In " "%char s -> resolve v a <> s.
Proof.
  destruct V as (_ & _ & _ & _ & _ & _ & _ & Vf). intros Nd Ns Eq. unfold resolve in Eq. destruct (sv_types v a) as [t|] eqn:Ea.
  - subst s. exact (Nd (proj2 (proj2 (Vf a t Ea)))).
  - apply Ns. rewrite <- Eq. apply in_or_app. right. left. reflexivity.
Qed.
Ltac nochar := let Hi := fresh in intros Hi; cbn in Hi; intuition discriminate.
Lemma global_type_inj a b : global_type a = global_type b -> a = b.
Proof.
  destruct a as [a|], b as [b|]; cbn [global_type]; intros Eq; [rewrite (resolve_inj a b Eq); reflexivity| | |reflexivity]; exfalso.
  - apply (resolve_not a (lit "Any")); [nochar|nochar|exact Eq].
  - apply (resolve_not b (lit "Any")); [nochar|nochar|symmetry; exact Eq].
Qed.
Lemma owned_type_inj a b : owned_type a = owned_type b -> a = b.
Proof.
  destruct a as [| | | | |a], b as [| | | | |b]; intros Eq; try reflexivity; try discriminate Eq;
    try (exfalso; first [apply (resolve_not a _) in Eq | symmetry in Eq; apply (resolve_not b _) in Eq]; [exact Eq|nochar|nochar]; fail).
  cbn [owned_type] in Eq. rewrite (resolve_inj a b Eq). reflexivity.
Qed.

Lemma mods_inj m o d m' o' d' : names_text (mods m o d) = names_text (mods m' o' d') -> m = m' /\ o = o' /\ d = d'.
Proof. destruct m, o, d, m', o', d'; intros Eq; first [discriminate Eq | repeat split]. Qed.

Lemma print_inj a b : line_ok a -> line_ok b -> print a = print b -> line_mean occ_means a = line_mean occ_means b.
Proof.
  intros Oa Ob Eq.
  assert (Fn : firstn 3 (print a) = firstn 3 (print b)) by (rewrite Eq; reflexivity).
  destruct a as [|n t|n g|n x|n r|n|d|k m o d|l|l|l|l|l|d|l|l], b as [|n' t'|n' g'|n' x'|n' r'|n'|d'|k' m' o' d'|l'|l'|l'|l'|l'|d'|l'|l'];
    try reflexivity;
    try (destruct k as [|n|n]); try (destruct k' as [|n'|n']); try (destruct x as [x1 [|] x2 x3]); try (destruct x' as [x1' [|] x2' x3']);
    try discriminate Fn; clear Fn; cbn [line_ok kind_ok] in Oa, Ob; cbn [print kind_text ai_public ai_required ai_multiple ai_state] in Eq; cbn [line_mean];
    rewrite <- ?app_assoc in Eq;
    repeat match type of Eq with ?p ++ ?x = ?p ++ ?y => apply app_inv_head in Eq end.
  - apply colon in Eq as [-> E]; [|apply word_colon; assumption..]. rewrite (meta_type_inj _ _ E). reflexivity.
  - rewrite !(app_assoc n), !(app_assoc n') in Eq. apply colon in Eq as [E1 E2]; [|apply sugared_colon; assumption..].
    apply (span_inj word_char) in E1 as [-> E1]; [|exact (proj2 Oa)|exact (proj2 Ob)|apply sugar_head..]. apply sugar_inj in E1 as [E3 E4]. apply global_type_inj in E2.
    destruct g, g'; cbn in *; subst; reflexivity.
  - rewrite !(app_assoc n), !(app_assoc n') in Eq. apply colon in Eq as [E1 E2]; [|apply sugared_colon; assumption..].
    apply (span_inj word_char) in E1 as [-> E1]; [|exact (proj2 Oa)|exact (proj2 Ob)|apply sugar_head..]. apply sugar_inj in E1 as [E3 E4]. apply owned_type_inj in E2. subst; reflexivity.
  - rewrite !(app_assoc n), !(app_assoc n') in Eq. apply colon in Eq as [E1 E2]; [|apply sugared_colon; assumption..].
    apply (span_inj word_char) in E1 as [-> E1]; [|exact (proj2 Oa)|exact (proj2 Ob)|apply sugar_head..]. apply sugar_inj in E1 as [E3 E4]. apply owned_type_inj in E2. subst; reflexivity.
  - apply (span_inj word_char) in Eq as [-> E]; [|exact (proj2 Oa)|exact (proj2 Ob)|destruct r; exact Logic.I || reflexivity|destruct r'; exact Logic.I || reflexivity].
    destruct r, r'; try discriminate E; reflexivity.
  - subst. reflexivity.
  - apply app_inv_tail in Eq. subst. reflexivity.
  - apply mods_inj in Eq as (-> & -> & ->). reflexivity.
  - apply colon in Eq as [-> E]; [|apply word_colon; assumption..]. apply mods_inj in E as (-> & -> & ->). reflexivity.
  - apply colon in Eq as [-> E]; [|apply word_colon; assumption..]. apply mods_inj in E as (-> & -> & ->). reflexivity.
  - rewrite (names_inj l l' Oa Ob Eq). reflexivity.
  - rewrite (names_inj l l' Oa Ob Eq). reflexivity.
  - rewrite (args_inj l l' Oa Ob Eq). reflexivity.
  - rewrite (names_inj l l' Oa Ob Eq). reflexivity.
  - rewrite (args_inj l l' Oa Ob Eq). reflexivity.
  - subst. reflexivity.
  - rewrite (args_inj l l' Oa Ob Eq). reflexivity.
  - rewrite (names_inj l l' Oa Ob Eq). reflexivity.
Qed.

Lemma one_line_app a b : one_line a -> one_line b -> one_line (a ++ b).
Proof. intros Ha Hb Hi. apply in_app_or in Hi as [Hi|Hi]; auto. Qed.
Lemma one_line_word s : word s -> one_line s.
Proof. apply word_not. reflexivity. Qed.
Lemma one_line_join l : Forall one_line l -> one_line (join (lit ", ") l).
Proof.
  induction l as [|a l IH]; intros F; [intros []|]. destruct l as [|b l]; [exact (Forall_inv F)|]. cbn [join].
  apply one_line_app; [exact (Forall_inv F)|]. apply one_line_app; [nochar|]. apply IH, (Forall_inv_tail F).
Qed.
Lemma one_line_names l : Forall word l -> one_line (names_text l).
Proof. intros F. apply one_line_join. eapply Forall_impl; [|exact F]. apply one_line_word. Qed.
Lemma one_line_dec n : one_line (dec_print n).
Proof. intros Hn. pose proof (dec_print_digits n) as Fd. rewrite Forall_forall in Fd. specialize (Fd _ Hn). discriminate Fd. Qed.
Lemma one_line_args l : names_ok l -> one_line (args_text l).
Proof.
  intros F. apply one_line_join. apply Forall_forall. intros s Hs. apply in_map_iff in Hs as (p & <- & Hp). apply one_line_app.
  - apply one_line_word. exact (proj1 (Forall_forall _ _) F p Hp).
  - destruct (snd p); cbn [occ_text]; repeat apply one_line_app; try apply one_line_dec; nochar.
Qed.
Lemma one_line_resolve a : one_line (resolve v a).
Proof.
  destruct V as (_ & _ & _ & _ & _ & Vn & _ & Vf). unfold resolve. destruct (sv_types v a) as [t|] eqn:Ea; [exact (proj1 (Vf a t Ea))|].
  apply one_line_app; [exact (proj1 (Vn a))|nochar].
Qed.
Lemma one_line_print l : line_ok l -> one_line (print l).
Proof.
  destruct l as [|n t|n g|n x|n r|n|d|k m o d|l|l|l|l|l|d|l|l]; cbn [line_ok print]; intros O;
    repeat apply one_line_app; try nochar; try (apply one_line_word; assumption); try (apply one_line_names; assumption); try (apply one_line_args; assumption).
  - destruct V as (_ & _ & _ & _ & Vn & _ & _ & Vf). unfold meta_type. destruct (sv_types v t) as [q|] eqn:Ea; [exact (proj1 (Vf t q Ea))|].
    apply one_line_app; [exact (proj1 (Vn t))|nochar].
  - destruct g as [? [|] [|]]; nochar.
  - destruct g as [[id|] ? ?]; cbn [gi_sem global_type]; [apply one_line_resolve|nochar].
  - destruct x as [? [|] ? ?]; nochar.
  - destruct x as [? ? [|] [|]]; nochar.
  - destruct x as [[| | | | |id] ? ? ?]; cbn [ai_state owned_type]; try nochar. apply one_line_resolve.
  - destruct r; nochar.
  - exact O.
  - destruct k as [|n|n]; cbn [kind_text]; [nochar|apply one_line_app; [nochar|apply one_line_word; exact O]..].
  - apply one_line_names. destruct m, o, d; repeat constructor; discriminate.
Qed.

Lemma unlines_inj a b : Forall line_ok a -> Forall line_ok b -> unlines a = unlines b -> map (line_mean occ_means) a = map (line_mean occ_means) b.
Proof.
  revert b. induction a as [|x a IH]; intros [|y b] Fa Fb Eq; cbn [unlines flat_map] in Eq.
  - reflexivity.
  - symmetry in Eq. apply app_eq_nil in Eq as [Eq _]. apply app_eq_nil in Eq as [_ Eq]. discriminate Eq.
  - apply app_eq_nil in Eq as [Eq _]. apply app_eq_nil in Eq as [_ Eq]. discriminate Eq.
  - rewrite <- !app_assoc in Eq. cbn [app] in Eq.
    apply (cut nl) in Eq as [E1 E2]; [|exact (one_line_print x (Forall_inv Fa))|exact (one_line_print y (Forall_inv Fb))].
    cbn [map]. f_equal; [exact (print_inj x y (Forall_inv Fa) (Forall_inv Fb) E1)|].
    exact (IH b (Forall_inv_tail Fa) (Forall_inv_tail Fb) E2).
Qed.
End Print.

(** ** The lines of an interface tell the interface *)

Lemma some_line_mean {A A' B B'} (m : B -> B') (l : list A) (l' : list A') x :
  is_nil l = is_nil l' -> map (line_mean m) (some_line l x) = some_line l' (line_mean m x).
Proof. unfold some_line. intros ->. destruct (is_nil l'); reflexivity. Qed.

Lemma op_lines_mean {A B} (m : A -> B) o : map (line_mean m) (op_lines o) = op_lines (op_mean m o).
Proof.
  unfold op_lines. rewrite !map_app. repeat f_equal; match goal with |- map _ (some_line ?l ?x) = some_line ?k _ => refine (some_line_mean m l k x _) end; cbn [op_mean so_errors so_metadata so_globals so_valencies so_assigns]; try reflexivity;
    unfold args_mean; match goal with |- _ = is_nil (map _ ?l) => destruct l end; reflexivity.
Qed.
Lemma default_lines_mean {A B} (m : A -> B) d : map (line_mean m) (default_lines d) = default_lines d.
Proof. destruct d; reflexivity. Qed.

Lemma flat_map_map {A B C} (f : B -> list C) (g : A -> B) l : flat_map f (map g l) = flat_map (fun x => f (g x)) l.
Proof. induction l as [|a l IH]; [reflexivity|]. cbn [map flat_map]. rewrite IH. reflexivity. Qed.
Lemma map_flat_map {A B C} (g : B -> C) (f : A -> list B) l : map g (flat_map f l) = flat_map (fun x => map g (f x)) l.
Proof. induction l as [|a l IH]; [reflexivity|]. cbn [flat_map]. rewrite map_app, IH. reflexivity. Qed.

Lemma lines_mean {A B} (m : A -> B) f : map (line_mean m) (lines f) = lines (iface_mean m f).
Proof.
  unfold lines. rewrite !map_app, !map_map, !map_flat_map. cbn [iface_mean sf_metadata sf_globals sf_assigns sf_valencies sf_errors sf_genesis sf_transitions sf_extensions sf_default].
  rewrite !flat_map_map, op_lines_mean.
  rewrite (flat_map_ext _ (fun x => transition_lines (sf_default f) (fst x, {| st_op := op_mean m (st_op (snd x)); st_optional := st_optional (snd x);
         st_inputs := args_mean m (st_inputs (snd x)); st_default := st_default (snd x) |})))
    by (intros [n t]; unfold transition_lines; rewrite !map_app, op_lines_mean, default_lines_mean; reflexivity).
  rewrite (flat_map_ext (fun x => map (line_mean m) (extension_lines (sf_default f) x)) (fun x => extension_lines (sf_default f) (fst x, {| se_op := op_mean m (se_op (snd x)); se_optional := se_optional (snd x);
         se_redeems := se_redeems (snd x); se_default := se_default (snd x) |})))
    by (intros [n t]; unfold extension_lines; rewrite !map_app, op_lines_mean, default_lines_mean; reflexivity).
  rewrite (some_line_mean m (sf_metadata f) (sf_metadata f) LBlank eq_refl), (some_line_mean m (sf_assigns f) (sf_assigns f) LBlank eq_refl),
    (some_line_mean m (sf_valencies f) (sf_valencies f) LBlank eq_refl), (some_line_mean m (sf_errors f) (sf_errors f) LBlank eq_refl).
  reflexivity.
Qed.

(** The lines of one operation after its first, up to the next *)
Fixpoint group {O} (l : list (line O)) : list (line O) * list (kind * Modifier * bool * bool * list (line O)) :=
  match l with
  | [] => ([], [])
  | LOp k m o d :: l => let (a, b) := group l in ([], (k, m, o, d, a) :: b)
  | x :: l => let (a, b) := group l in (x :: a, b)
  end.

Definition plain {O} (x : line O) : Prop := match x with LOp _ _ _ _ => False | _ => True end.

Lemma group_plain {O} (a b : list (line O)) : Forall plain a -> group (a ++ b) = (a ++ fst (group b), snd (group b)).
Proof.
  induction a as [|x a IH]; intros F; [cbn; destruct (group b); reflexivity|]. cbn [app]. pose proof (Forall_inv F) as P. specialize (IH (Forall_inv_tail F)).
  destruct x; try contradiction; cbn [group]; rewrite IH; reflexivity.
Qed.
Lemma group_op {O} k m o d (b : list (line O)) : group (LOp k m o d :: b) = ([], (k, m, o, d, fst (group b)) :: snd (group b)).
Proof. cbn [group]. destruct (group b); reflexivity. Qed.

Lemma plain_some {O A} (l : list A) (x : line O) : plain x -> Forall plain (some_line l x).
Proof. intros P. unfold some_line. destruct (is_nil l); repeat constructor. exact P. Qed.
Lemma plain_op {O} (o : SrcOp O) : Forall plain (op_lines o).
Proof. unfold op_lines. repeat (apply Forall_app; split); apply plain_some; exact Logic.I. Qed.
Lemma plain_default {O} d : Forall (@plain O) (default_lines d).
Proof. destruct d; repeat constructor. Qed.

Section Groups.
Context {O : Type} (d : option str).
Definition tgroup (p : str * SrcTransition O) : kind * Modifier * bool * bool * list (line O) :=
  (KTransition (fst p), so_modifier (st_op (snd p)), st_optional (snd p), is_default d (fst p),
   op_lines (st_op (snd p)) ++ default_lines (st_default (snd p)) ++ [LInputs (st_inputs (snd p)); LBlank]).
Definition egroup (p : str * SrcExtension O) : kind * Modifier * bool * bool * list (line O) :=
  (KExtension (fst p), so_modifier (se_op (snd p)), se_optional (snd p), is_default d (fst p),
   op_lines (se_op (snd p)) ++ default_lines (se_default (snd p)) ++ [LRedeems (se_redeems (snd p)); LBlank]).

Lemma group_transitions l (b : list (line O)) : fst (group b) = [] ->
  group (flat_map (transition_lines d) l ++ b) = ([], map tgroup l ++ snd (group b)).
Proof.
  intros Hb. induction l as [|p l IH]; [cbn [flat_map app map]; destruct (group b); cbn in Hb; subst; reflexivity|].
  cbn [flat_map map]. unfold transition_lines at 1. rewrite <- !app_assoc. cbn [app]. rewrite group_op.
  rewrite !group_plain by (apply plain_op || apply plain_default).
  change (LInputs (st_inputs (snd p)) :: LBlank :: ?x) with ([LInputs (st_inputs (snd p)); LBlank] ++ x).
  change (group (LInputs (st_inputs (snd p)) :: LBlank :: flat_map (transition_lines d) l ++ b)) with (group ([LInputs (st_inputs (snd p)); LBlank] ++ (flat_map (transition_lines d) l ++ b))).
  rewrite group_plain by (repeat constructor). rewrite IH. cbn [fst snd]. rewrite app_nil_r. reflexivity.
Qed.
Lemma group_extensions l : group (flat_map (extension_lines d) l) = ([], map egroup l).
Proof.
  induction l as [|p l IH]; [reflexivity|].
  cbn [flat_map map]. unfold extension_lines at 1. rewrite <- !app_assoc. cbn [app]. rewrite group_op.
  rewrite !group_plain by (apply plain_op || apply plain_default).
  change (group (LRedeems (se_redeems (snd p)) :: LBlank :: flat_map (extension_lines d) l)) with (group ([LRedeems (se_redeems (snd p)); LBlank] ++ flat_map (extension_lines d) l)).
  rewrite group_plain by (repeat constructor). rewrite IH. cbn [fst snd]. rewrite app_nil_r. reflexivity.
Qed.
End Groups.

(** The lines before the operations *)
Definition first_lines {O} (f : SrcIface O) : list (line O) :=
  map (fun p => LMeta (fst p) (snd p)) (sf_metadata f) ++ some_line (sf_metadata f) LBlank ++
  map (fun p => LGlobal (fst p) (snd p)) (sf_globals f) ++ [LBlank] ++
  map (fun p => LAssign (fst p) (snd p)) (sf_assigns f) ++ some_line (sf_assigns f) LBlank ++
  map (fun p => LValency (fst p) (snd p)) (sf_valencies f) ++ some_line (sf_valencies f) LBlank ++
  flat_map (fun p => [LError (fst p); LDescr (snd p)]) (sf_errors f) ++ some_line (sf_errors f) LBlank.

Lemma plain_first {O} (f : SrcIface O) : Forall plain (first_lines f).
Proof.
  unfold first_lines. repeat (apply Forall_app; split); try (apply plain_some; exact Logic.I); try (repeat constructor; fail);
    apply Forall_forall; intros x Hx; [apply in_map_iff in Hx as (p & <- & _); exact Logic.I..|].
  apply in_flat_map in Hx as (p & _ & [<-|[<-|[]]]); exact Logic.I.
Qed.

Lemma group_lines {O} (f : SrcIface O) :
  group (lines f) = (first_lines f,
    (KGenesis, so_modifier (sf_genesis f), true, false, op_lines (sf_genesis f) ++ [LBlank]) ::
    map (tgroup (sf_default f)) (sf_transitions f) ++ map (egroup (sf_default f)) (sf_extensions f)).
Proof.
  replace (lines f) with (first_lines f ++ (LOp KGenesis (so_modifier (sf_genesis f)) true false :: op_lines (sf_genesis f) ++ [LBlank] ++
    flat_map (transition_lines (sf_default f)) (sf_transitions f) ++ flat_map (extension_lines (sf_default f)) (sf_extensions f)))
    by (unfold lines, first_lines; rewrite <- !app_assoc; reflexivity).
  rewrite group_plain by apply plain_first. rewrite group_op. cbn [fst snd]. rewrite app_nil_r.
  rewrite !group_plain by (apply plain_op || (repeat constructor)).
  rewrite group_transitions by (rewrite group_extensions; reflexivity). rewrite group_extensions. cbn [fst snd]. rewrite app_nil_r. reflexivity.
Qed.

(** Reading one section out of the lines *)
Lemma fm_app {A B} (f : A -> option B) a b : filter_map f (a ++ b) = filter_map f a ++ filter_map f b.
Proof. induction a as [|x a IH]; [reflexivity|]. cbn [app filter_map]. rewrite IH. destruct (f x); reflexivity. Qed.
Lemma fm_none {A B} (f : A -> option B) l : (forall x, In x l -> f x = None) -> filter_map f l = [].
Proof.
  induction l as [|x l IH]; intros Hl; [reflexivity|]. cbn [filter_map]. rewrite (Hl x (or_introl eq_refl)). apply IH. intros y Hy. apply Hl. right. exact Hy.
Qed.
Lemma fm_map_none {A B C} (f : B -> option C) (g : A -> B) l : (forall x, f (g x) = None) -> filter_map f (map g l) = [].
Proof. intros Hg. apply fm_none. intros x Hx. apply in_map_iff in Hx as (y & <- & _). apply Hg. Qed.
Lemma fm_map_some {A B C} (f : B -> option C) (g : A -> B) (h : A -> C) l : (forall x, f (g x) = Some (h x)) -> filter_map f (map g l) = map h l.
Proof. intros Hg. induction l as [|x l IH]; [reflexivity|]. cbn [map filter_map]. rewrite Hg, IH. reflexivity. Qed.
Lemma fm_some_line {A B C} (f : line B -> option C) (l : list A) : f LBlank = None -> filter_map f (some_line l LBlank) = [].
Proof. intros Hf. unfold some_line. destruct (is_nil l); [reflexivity|]. cbn [filter_map]. rewrite Hf. reflexivity. Qed.

Section Sections.
Context {O : Type}.
Definition r_meta (x : line O) := match x with LMeta n t => Some (n, t) | _ => None end.
Definition r_global (x : line O) := match x with LGlobal n t => Some (n, t) | _ => None end.
Definition r_assign (x : line O) := match x with LAssign n t => Some (n, t) | _ => None end.
Definition r_valency (x : line O) := match x with LValency n t => Some (n, t) | _ => None end.
Definition r_error (x : line O) := match x with LError n => Some n | _ => None end.
Definition r_descr (x : line O) := match x with LDescr n => Some n | _ => None end.

Lemma fm_errors_none {C} (f : line O -> option C) (l : list (str * str)) :
  (forall n, f (LError n) = None) -> (forall n, f (LDescr n) = None) -> filter_map f (flat_map (fun p => [LError (fst p); LDescr (snd p)]) l) = [].
Proof. intros H1 H2. apply fm_none. intros x Hx. apply in_flat_map in Hx as (p & _ & [<-|[<-|[]]]); auto. Qed.

Lemma first_read (f : SrcIface O) :
  filter_map r_meta (first_lines f) = sf_metadata f /\ filter_map r_global (first_lines f) = sf_globals f /\
  filter_map r_assign (first_lines f) = sf_assigns f /\ filter_map r_valency (first_lines f) = sf_valencies f /\
  filter_map r_error (first_lines f) = map fst (sf_errors f) /\ filter_map r_descr (first_lines f) = map snd (sf_errors f).
Proof.
  unfold first_lines. rewrite !fm_app. rewrite !(fm_some_line _ _ (eq_refl _)) by reflexivity. cbn [filter_map r_meta r_global r_assign r_valency r_error r_descr app].
  assert (Id : forall (A B : Type) (l : list (A * B)), map (fun p => (fst p, snd p)) l = l) by (intros A B l; rewrite <- (map_id l) at 2; apply map_ext; intros [a b]; reflexivity).
  assert (E1 : filter_map r_error (flat_map (fun p => [LError (fst p); LDescr (snd p)]) (sf_errors f)) = map fst (sf_errors f)) by (induction (sf_errors f) as [|p l IH]; [reflexivity|]; cbn [flat_map app filter_map r_error map]; rewrite IH; reflexivity).
  assert (E2 : filter_map r_descr (flat_map (fun p => [LError (fst p); LDescr (snd p)]) (sf_errors f)) = map snd (sf_errors f)) by (clear E1; induction (sf_errors f) as [|p l IH]; [reflexivity|]; cbn [flat_map app filter_map r_descr map]; rewrite IH; reflexivity).
  rewrite E1, E2.
  rewrite (fm_map_some r_meta _ (fun p => (fst p, snd p))) by reflexivity. rewrite (fm_map_some r_global _ (fun p => (fst p, snd p))) by reflexivity.
  rewrite (fm_map_some r_assign _ (fun p => (fst p, snd p))) by reflexivity. rewrite (fm_map_some r_valency _ (fun p => (fst p, snd p))) by reflexivity.
  rewrite !Id. rewrite !fm_errors_none by reflexivity. rewrite !fm_map_none by reflexivity. rewrite ?app_nil_r. cbn [app]. repeat split; reflexivity.
Qed.
End Sections.

Section Ops.
Context {O : Type}.
Definition list_of (l : list (list str)) : list str := match l with x :: _ => x | [] => [] end.
Definition alist_of (l : list (list (str * O))) : list (str * O) := match l with x :: _ => x | [] => [] end.
Definition q_errors (x : line O) := match x with LErrors l => Some l | _ => None end.
Definition q_metas (x : line O) := match x with LMetas l => Some l | _ => None end.
Definition q_globals (x : line O) := match x with LGlobals l => Some l | _ => None end.
Definition q_valencies (x : line O) := match x with LValencies l => Some l | _ => None end.
Definition q_assigns (x : line O) := match x with LAssigns l => Some l | _ => None end.
Definition q_default (x : line O) := match x with LDefault l => Some l | _ => None end.
Definition q_inputs (x : line O) := match x with LInputs l => Some l | _ => None end.
Definition q_redeems (x : line O) := match x with LRedeems l => Some l | _ => None end.

Definition op_of (m : Modifier) (l : list (line O)) : SrcOp O :=
  {| so_modifier := m; so_metadata := list_of (filter_map q_metas l); so_globals := alist_of (filter_map q_globals l);
     so_assigns := alist_of (filter_map q_assigns l); so_valencies := list_of (filter_map q_valencies l); so_errors := list_of (filter_map q_errors l) |}.
Definition default_of (l : list (line O)) : option str := match filter_map q_default l with x :: _ => Some x | [] => None end.

Lemma fm_some {A C} (q : line O -> option C) (l : list A) x : q x = None -> filter_map q (some_line l x) = [].
Proof. intros E. unfold some_line. destruct (is_nil l); [reflexivity|]. cbn [filter_map]. rewrite E. reflexivity. Qed.
Lemma fm_of {A C} (q : line O -> option C) (l : list A) x y : q x = Some y -> filter_map q (some_line l x) = if is_nil l then [] else [y].
Proof. intros E. unfold some_line. destruct (is_nil l); [reflexivity|]. cbn [filter_map]. rewrite E. reflexivity. Qed.

Lemma op_read (o : SrcOp O) rest :
  (forall x, In x rest -> match x with LErrors _ | LMetas _ | LGlobals _ | LValencies _ | LAssigns _ => False | _ => True end) ->
  op_of (so_modifier o) (op_lines o ++ rest) = o.
Proof.
  intros Hr.
  assert (Nr : filter_map q_errors rest = [] /\ filter_map q_metas rest = [] /\ filter_map q_globals rest = [] /\ filter_map q_valencies rest = [] /\ filter_map q_assigns rest = []).
  { repeat split; apply fm_none; intros x Hx; specialize (Hr x Hx); destruct x; try contradiction; reflexivity. }
  destruct Nr as (N1 & N2 & N3 & N4 & N5). unfold op_of, op_lines. rewrite !fm_app, N1, N2, N3, N4, N5.
  destruct o as [m me gl asg va er]. cbn [so_modifier so_metadata so_globals so_assigns so_valencies so_errors].
  destruct me, gl, asg, va, er; reflexivity.
Qed.

Lemma op_q {C} (q : line O -> option C) (o : SrcOp O) :
  (forall l, q (LErrors l) = None) -> (forall l, q (LMetas l) = None) -> (forall l, q (LGlobals l) = None) -> (forall l, q (LValencies l) = None) -> (forall l, q (LAssigns l) = None) ->
  filter_map q (op_lines o) = [].
Proof. intros H1 H2 H3 H4 H5. unfold op_lines. rewrite !fm_app, !fm_some by auto. reflexivity. Qed.

Lemma tgroup_inj d d' p p' : tgroup (O := O) d p = tgroup d' p' -> p = p' /\ is_default d (fst p) = is_default d' (fst p).
Proof.
  intros Eq. unfold tgroup in Eq. apply pair_equal_spec in Eq as [Eq E5]. apply pair_equal_spec in Eq as [Eq E4]. apply pair_equal_spec in Eq as [Eq E3]. apply pair_equal_spec in Eq as [E1 E2].
  injection E1 as E1. destruct p as [n [o op i df]], p' as [n' [o' op' i' df']]. cbn [fst snd st_op st_optional st_inputs st_default] in *. subst n' op'.
  split; [|exact E4]. f_equal.
  assert (Eo : o = o').
  { rewrite <- (op_read o (default_lines df ++ [LInputs i; LBlank])), <- (op_read o' (default_lines df' ++ [LInputs i' ; LBlank])), E2, E5; [reflexivity| |];
      intros x Hx; apply in_app_or in Hx as [Hx|[<-|[<-|[]]]]; try exact Logic.I; destruct df, df'; cbn [default_lines In] in Hx; try contradiction; destruct Hx as [<-|[]]; exact Logic.I. }
  subst o'. apply app_inv_head in E5.
  assert (Ed : df = df') by (destruct df, df'; cbn in E5; congruence). subst df'. apply app_inv_head in E5. injection E5 as ->. reflexivity.
Qed.
Lemma egroup_inj d d' p p' : egroup (O := O) d p = egroup d' p' -> p = p' /\ is_default d (fst p) = is_default d' (fst p).
Proof.
  intros Eq. unfold egroup in Eq. apply pair_equal_spec in Eq as [Eq E5]. apply pair_equal_spec in Eq as [Eq E4]. apply pair_equal_spec in Eq as [Eq E3]. apply pair_equal_spec in Eq as [E1 E2].
  injection E1 as E1. destruct p as [n [o op i df]], p' as [n' [o' op' i' df']]. cbn [fst snd se_op se_optional se_redeems se_default] in *. subst n' op'.
  split; [|exact E4]. f_equal.
  assert (Eo : o = o').
  { rewrite <- (op_read o (default_lines df ++ [LRedeems i; LBlank])), <- (op_read o' (default_lines df' ++ [LRedeems i' ; LBlank])), E2, E5; [reflexivity| |];
      intros x Hx; apply in_app_or in Hx as [Hx|[<-|[<-|[]]]]; try exact Logic.I; destruct df, df'; cbn [default_lines In] in Hx; try contradiction; destruct Hx as [<-|[]]; exact Logic.I. }
  subst o'. apply app_inv_head in E5.
  assert (Ed : df = df') by (destruct df, df'; cbn in E5; congruence). subst df'. apply app_inv_head in E5. injection E5 as ->. reflexivity.
Qed.

Lemma groups_inj d d' (t t' : list (str * SrcTransition O)) (e e' : list (str * SrcExtension O)) :
  map (tgroup d) t ++ map (egroup d) e = map (tgroup d') t' ++ map (egroup d') e' ->
  t = t' /\ e = e' /\ (forall n, In n (map fst t) \/ In n (map fst e) -> is_default d n = is_default d' n).
Proof.
  revert t'. induction t as [|p t IH]; intros [|p' t'] Eq; cbn [map app] in Eq.
  - split; [reflexivity|]. revert e' Eq. induction e as [|q e IHe]; intros [|q' e'] Eq; cbn [map] in Eq; try discriminate Eq; [split; [reflexivity|intros n [[]|[]]]|].
    assert (E1 : egroup d q = egroup d' q') by congruence. assert (E2 : map (egroup d) e = map (egroup d') e') by congruence.
    destruct (egroup_inj _ _ _ _ E1) as [-> D]. destruct (IHe e' E2) as [-> Hd]. split; [reflexivity|]. intros n [[]|[<-|Hn]]; [exact D|]. apply Hd. right. exact Hn.
  - exfalso. destruct e as [|q e]; [discriminate Eq|]. assert (E1 : egroup d q = tgroup d' p') by (cbn in Eq; congruence). discriminate E1.
  - exfalso. destruct e' as [|q e']; [discriminate Eq|]. assert (E1 : egroup d' q = tgroup d p) by (cbn in Eq; congruence). discriminate E1.
  - assert (E1 : tgroup d p = tgroup d' p') by congruence. assert (E2 : map (tgroup d) t ++ map (egroup d) e = map (tgroup d') t' ++ map (egroup d') e') by congruence.
    destruct (tgroup_inj _ _ _ _ E1) as [-> D]. destruct (IH t' E2) as (-> & -> & Hd). split; [reflexivity|]. split; [reflexivity|].
    intros n [[<-|Hn]|Hn]; [exact D| |]; apply Hd; [left|right]; exact Hn.
Qed.
End Ops.

Lemma is_default_true d n : is_default d n = true <-> d = Some n.
Proof. destruct d as [x|]; cbn [is_default]; [rewrite streqb_eq|]; split; congruence. Qed.

Lemma lines_inj {O} (f g : SrcIface O) : default_exists f -> default_exists g -> lines f = lines g ->
  sf_metadata f = sf_metadata g /\ sf_globals f = sf_globals g /\ sf_assigns f = sf_assigns g /\ sf_valencies f = sf_valencies g /\
  sf_errors f = sf_errors g /\ sf_genesis f = sf_genesis g /\ sf_transitions f = sf_transitions g /\ sf_extensions f = sf_extensions g /\ sf_default f = sf_default g.
Proof.
  intros Df Dg Eq. pose proof (group_lines f) as Gf. rewrite Eq, group_lines in Gf. apply pair_equal_spec in Gf as [E1 E2].
  destruct (first_read f) as (A1 & A2 & A3 & A4 & A5 & A6). destruct (first_read g) as (B1 & B2 & B3 & B4 & B5 & B6). rewrite <- E1 in A1, A2, A3, A4, A5, A6.
  rewrite <- A1, <- B1, <- A2, <- B2, <- A3, <- B3, <- A4, <- B4. do 4 (split; [reflexivity|]). split.
  { rewrite A5 in B5. rewrite A6 in B6. clear - B5 B6. revert B5 B6. generalize (sf_errors g) as l'. induction (sf_errors f) as [|[a b] l IH]; intros [|[a' b'] l'] E5 E6; try discriminate E5; [reflexivity|].
    cbn [map fst snd] in E5, E6. injection E5 as -> E5. injection E6 as -> E6. f_equal. exact (IH l' E5 E6). }
  assert (Eg : (KGenesis, so_modifier (sf_genesis g), true, false, op_lines (sf_genesis g) ++ [LBlank]) = (KGenesis, so_modifier (sf_genesis f), true, false, op_lines (sf_genesis f) ++ [LBlank])) by congruence.
  apply (f_equal (@tl _)) in E2. cbn [tl] in E2. split.
  { apply pair_equal_spec in Eg as [Eg Eb]. assert (Em : so_modifier (sf_genesis g) = so_modifier (sf_genesis f)) by congruence.
    rewrite <- (op_read (sf_genesis f) [LBlank]), <- (op_read (sf_genesis g) [LBlank]), Em, Eb; [reflexivity|intros x [<-|[]]; exact Logic.I..]. }
  destruct (groups_inj _ _ _ _ _ _ E2) as (Et & Ee & Hd). split; [symmetry; exact Et|]. split; [symmetry; exact Ee|].
  destruct (sf_default f) as [x|] eqn:Ef.
  - destruct (Df x Ef) as [Hx|Hx]; rewrite <- ?Et, <- ?Ee in Hx; symmetry; apply is_default_true; rewrite (Hd x) by (auto); apply is_default_true; reflexivity.
  - destruct (sf_default g) as [y|] eqn:Eg'; [|reflexivity]. specialize (Dg y Eg'). specialize (Hd y Dg).
    assert (Hy : is_default (Some y) y = true) by (apply is_default_true; reflexivity). rewrite Hd in Hy. discriminate Hy.
Qed.

(** ** The first lines of the text *)

Lemma int_inj a b : int_text a = int_text b -> a = b.
Proof.
  unfold int_text. destruct (a <? 0)%Z eqn:Ea, (b <? 0)%Z eqn:Eb; cbn [app lit list_ascii_of_string]; intros Eq.
  - injection Eq as Eq. apply dec_print_inj in Eq. lia.
  - exfalso. destruct (dec_cons (Z.abs_N b)) as (c & s & E & D). rewrite E in Eq. injection Eq as <- _. discriminate D.
  - exfalso. destruct (dec_cons (Z.abs_N a)) as (c & s & E & D). rewrite E in Eq. injection Eq as -> _. discriminate D.
  - apply dec_print_inj in Eq. lia.
Qed.
Lemma one_line_int a : one_line (int_text a).
Proof. unfold int_text. apply one_line_app; [destruct (a <? 0)%Z; intros Hi; cbn in Hi; intuition discriminate|apply one_line_dec]. Qed.

(** Neither comma nor end of line *)
Definition within (c : ascii) : bool := negb (is_char c ","%char) && negb (is_char c nl).
Lemma within_all s : ~ In ","%char s -> one_line s -> Forall (fun c => within c = true) s.
Proof.
  intros H1 H2. apply Forall_forall. intros c Hc. unfold within. apply andb_true_iff. split; apply negb_true_iff, is_char_false; intros ->; auto.
Qed.

Section Head.
Context (v : SrcEnv) (V : ids_ok v) (Vn : externals_named v) (Vd : externals_distinct v).

Definition item (id : N) : str := match sv_externals v id with Some name => name | None => sv_iface_bare v id end.
Definition item_end (id : N) : str := match sv_externals v id with Some _ => [] | None => [nl] end.

Lemma item_within id : Forall (fun c => within c = true) (item id).
Proof.
  unfold item. destruct (sv_externals v id) as [n|] eqn:E.
  - apply within_all; [exact (word_not ","%char n eq_refl (Vn id n E))|exact (one_line_word n (Vn id n E))].
  - destruct V as (_ & Vb & _). destruct (Vb id) as (B1 & B2 & _). exact (within_all _ B2 B1).
Qed.

Lemma item_inj a b : item a = item b -> a = b.
Proof.
  unfold item. destruct V as (Vi & Vb & _). destruct (sv_externals v a) as [n|] eqn:Ea, (sv_externals v b) as [n'|] eqn:Eb; intros Eq.
  - subst n'. exact (Vd a b n Ea Eb).
  - exfalso. subst n. exact (proj2 (proj2 (Vb b)) (Vn a _ Ea)).
  - exfalso. subst n'. exact (proj2 (proj2 (Vb a)) (Vn b _ Eb)).
  - exact (Vi a b Eq).
Qed.

Lemma inherits_next id l : inherits_text v true (id :: l) = item id ++ item_end id ++ inherits_text v false l.
Proof. cbn [inherits_text app]. unfold item, item_end. destruct (sv_externals v id); cbn [app]; rewrite <- ?app_assoc; reflexivity. Qed.
Lemma inherits_more id l : inherits_text v false (id :: l) = lit ", " ++ inherits_text v true (id :: l).
Proof. reflexivity. Qed.

Lemma inherits_head l rest : match inherits_text v false l ++ nl :: rest with [] => True | c :: _ => within c = false end.
Proof. destruct l as [|id l]; [reflexivity|]. rewrite inherits_more. reflexivity. Qed.

Lemma inherits_inj l l' rest rest' :
  inherits_text v false l ++ nl :: rest = inherits_text v false l' ++ nl :: rest' -> l = l' /\ rest = rest'.
Proof.
  revert l'. induction l as [|a l IH]; intros [|b l'] Eq.
  - cbn in Eq. injection Eq as ->. split; reflexivity.
  - rewrite inherits_more in Eq. discriminate Eq.
  - rewrite inherits_more in Eq. discriminate Eq.
  - rewrite !inherits_more, !inherits_next, <- !app_assoc in Eq. apply app_inv_head in Eq.
    apply (span_inj within) in Eq as [E1 E2]; [|apply item_within..| |].
    + apply item_inj in E1. subst b. apply app_inv_head in E2. destruct (IH l' E2) as [-> ->]. split; reflexivity.
    + unfold item_end. destruct (sv_externals v a); [apply inherits_head|reflexivity].
    + unfold item_end. destruct (sv_externals v b); [apply inherits_head|reflexivity].
Qed.

Lemma head_inj id id' f g rest rest' :
  one_line id -> one_line id' -> word (sf_name f) -> word (sf_name g) -> one_line (sf_developer f) -> one_line (sf_developer g) ->
  head_text v id f ++ rest = head_text v id' g ++ rest' ->
  sf_version f = sf_version g /\ id = id' /\ sf_developer f = sf_developer g /\ sf_timestamp f = sf_timestamp g /\
  sf_name f = sf_name g /\ sf_inherits f = sf_inherits g /\ rest = rest'.
Proof.
  intros Oi Oi' Wf Wg Of Og Eq. unfold head_text in Eq. rewrite <- !app_assoc in Eq. apply app_inv_head in Eq.
  assert (Ev : sf_version f = sf_version g) by (destruct (sf_version f), (sf_version g); try reflexivity; discriminate Eq).
  split; [exact Ev|]. rewrite Ev in Eq. do 4 apply app_inv_head in Eq.
  rewrite (app_assoc id), (app_assoc id') in Eq. cbn [app] in Eq.
  assert (Oc : forall x, one_line x -> one_line (x ++ lit ")")) by (intros x Ox; apply one_line_app; [exact Ox|intros Hi; cbn in Hi; intuition discriminate]).
  apply (cut nl) in Eq as [E1 Eq]; [|apply Oc; assumption..]. apply app_inv_tail in E1. split; [exact E1|]. clear E1.
  assert (Ed : sf_developer f = sf_developer g /\
    lit "@timestamp(" ++ int_text (sf_timestamp f) ++ lit ")" ++ nl :: lit "interface " ++ sf_name f ++ unless_empty (sf_inherits f) (lit ": " ++ inherits_text v true (sf_inherits f)) ++ nl :: rest =
    lit "@timestamp(" ++ int_text (sf_timestamp g) ++ lit ")" ++ nl :: lit "interface " ++ sf_name g ++ unless_empty (sf_inherits g) (lit ": " ++ inherits_text v true (sf_inherits g)) ++ nl :: rest').
  { assert (Oq : forall x, one_line x -> one_line (x ++ lit """)")) by (intros x Ox; apply one_line_app; [exact Ox|intros Hi; cbn in Hi; intuition discriminate]).
    destruct (streqb (sf_developer f) (sv_anonymous v)) eqn:Df, (streqb (sf_developer g) (sv_anonymous v)) eqn:Dg.
    - apply streqb_eq in Df, Dg. split; [congruence|exact Eq].
    - discriminate Eq.
    - discriminate Eq.
    - rewrite <- !app_assoc in Eq. apply app_inv_head in Eq. rewrite (app_assoc (sf_developer f)), (app_assoc (sf_developer g)) in Eq. cbn [app] in Eq.
      apply (cut nl) in Eq as [E1 Eq]; [|apply Oq; assumption..]. apply app_inv_tail in E1. split; [exact E1|exact Eq]. }
  clear Eq. destruct Ed as [Ed Eq]. split; [exact Ed|]. apply app_inv_head in Eq.
  rewrite (app_assoc (int_text (sf_timestamp f))), (app_assoc (int_text (sf_timestamp g))) in Eq.
  apply (cut nl) in Eq as [E1 Eq]; [|apply Oc, one_line_int..]. apply app_inv_tail, int_inj in E1. split; [exact E1|].
  apply app_inv_head in Eq. apply (span_inj word_char) in Eq as [E2 Eq]; [|exact (proj2 Wf)|exact (proj2 Wg)|destruct (sf_inherits f); reflexivity|destruct (sf_inherits g); reflexivity].
  split; [exact E2|]. destruct (sf_inherits f) as [|a l], (sf_inherits g) as [|b l']; cbn [unless_empty] in Eq.
  - cbn in Eq. injection Eq as ->. split; reflexivity.
  - discriminate Eq.
  - discriminate Eq.
  - rewrite <- !app_assoc in Eq. apply app_inv_head in Eq.
    destruct (inherits_inj (a :: l) (b :: l') rest rest') as [El Er]; [rewrite !inherits_more, <- !app_assoc; f_equal; exact Eq|]. split; assumption.
Qed.
End Head.

(** ** All of it *)

Lemma default_lines_ok d : option_ok d -> Forall line_ok (default_lines d).
Proof. intros W. destruct d; [constructor; [exact W|constructor]|constructor]. Qed.
Lemma some_blank_ok {A} (l : list A) : Forall line_ok (some_line l LBlank).
Proof. unfold some_line. destruct (is_nil l); repeat constructor. Qed.
Lemma op_lines_ok o : op_ok o -> Forall line_ok (op_lines o).
Proof.
  intros (A & B & C & D & E).
  assert (S : forall A0 (l : list A0) x, line_ok x -> Forall line_ok (some_line l x)) by (intros A0 l x Hx; unfold some_line; destruct (is_nil l); repeat constructor; exact Hx).
  unfold op_lines. repeat (apply Forall_app; split); apply S; assumption.
Qed.

Local Opaque op_lines default_lines some_line.
Lemma lines_ok f : names_are_names f -> descriptions_ok f -> Forall line_ok (lines f).
Proof.
  intros (_ & A & B & C & D & E & F & G & H & _) De.
  assert (S : forall A0 (l : list A0), Forall line_ok (some_line l LBlank)) by (intros A0 l; apply some_blank_ok).
  assert (M : forall A0 (l : list (str * A0)) (g : str * A0 -> line Occurrences), names_ok l -> (forall p, word (fst p) -> line_ok (g p)) -> Forall line_ok (map g l)).
  { intros A0 l g Hl Hg. apply Forall_forall. intros x Hx. apply in_map_iff in Hx as (p & <- & Hp). apply Hg. exact (proj1 (Forall_forall _ _) Hl p Hp). }
  unfold lines. repeat (apply Forall_app; split); try apply S; try (apply M; [assumption|intros p Hp; exact Hp]); try (repeat constructor; fail).
  - apply Forall_forall. intros x Hx. apply in_flat_map in Hx as (p & Hp & [<-|[<-|[]]]); [exact (proj1 (Forall_forall _ _) E p Hp)|exact (proj1 (Forall_forall _ _) De p Hp)].
  - apply op_lines_ok, F.
  - apply Forall_forall. intros x Hx. apply in_flat_map in Hx as (p & Hp & Hx). destruct (proj1 (Forall_forall _ _) G p Hp) as (W & Op & In & Df).
    revert x Hx. apply Forall_forall. unfold transition_lines. repeat (apply Forall_app; split); [apply Forall_cons; [exact W|exact (Forall_nil _)]|apply op_lines_ok, Op| |apply Forall_cons; [exact In|apply Forall_cons; [exact Logic.I|exact (Forall_nil _)]]].
    exact (default_lines_ok _ Df).
  - apply Forall_forall. intros x Hx. apply in_flat_map in Hx as (p & Hp & Hx). destruct (proj1 (Forall_forall _ _) H p Hp) as (W & Op & In & Df).
    revert x Hx. apply Forall_forall. unfold extension_lines. repeat (apply Forall_app; split); [apply Forall_cons; [exact W|exact (Forall_nil _)]|apply op_lines_ok, Op| |apply Forall_cons; [exact In|apply Forall_cons; [exact Logic.I|exact (Forall_nil _)]]].
    exact (default_lines_ok _ Df).
Qed.
Local Transparent op_lines default_lines some_line.

Lemma default_mean f : default_exists f -> default_exists (meaning f).
Proof.
  intros D d Hd. cbn [meaning iface_mean sf_default sf_transitions sf_extensions] in *. rewrite !map_map. cbn [fst]. exact (D d Hd).
Qed.

Lemma source_inj v id id' f g :
  ids_ok v -> externals_named v -> externals_distinct v -> one_line id -> one_line id' ->
  names_are_names f -> default_exists f -> descriptions_ok f -> names_are_names g -> default_exists g -> descriptions_ok g ->
  source v id f = source v id' g -> id = id' /\ meaning f = meaning g.
Proof.
  intros V Vn Vd Oi Oi' Nf Df Sf Ng Dg Sg Eq. unfold source in Eq.
  pose proof Nf as (Wf & _ & _ & _ & _ & _ & _ & _ & _ & Of). pose proof Ng as (Wg & _ & _ & _ & _ & _ & _ & _ & _ & Og).
  destruct (head_inj v V Vn Vd id id' f g _ _ Oi Oi' Wf Wg Of Og Eq) as (E1 & E2 & E3 & E4 & E5 & E6 & Eb). split; [exact E2|].
  rewrite !body_lines in Eb. apply (unlines_inj v V) in Eb; [|exact (lines_ok f Nf Sf)|exact (lines_ok g Ng Sg)]. rewrite !lines_mean in Eb.
  destruct (lines_inj (meaning f) (meaning g) (default_mean f Df) (default_mean g Dg) Eb) as (A1 & A2 & A3 & A4 & A5 & A6 & A7 & A8 & A9).
  unfold meaning, iface_mean in *. cbn in A1, A2, A3, A4, A5, A6, A7, A8, A9.
  rewrite E1, E3, E4, E5, E6, A1, A2, A3, A4, A5, A6, A7, A8, A9. reflexivity.
Qed.
