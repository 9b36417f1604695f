(** * Ids of containers and validation: lemmas for C64, C65 *)
From Coq Require Import Sorting.Sorted.
From Verif Require Import Base Core MergeProofs ContainerModel ContainerSpec ContainerProofs StashModel ConsignModel IdentModel IdentSpec.
Local Open Scope N_scope.

(** ** Sets and lists *)
Lemma same_refl {A} (l : list A) : same_elements l l.
Proof. intros x. reflexivity. Qed.

Lemma sfrom_same {K} {O : OrdKey K} (l l' : list K) : sfrom l = sfrom l' <-> same_elements l l'.
Proof.
  split.
  - intros E x. rewrite <- (sfrom_In l), <- (sfrom_In l'), E. reflexivity.
  - intros E. apply ssorted_ext; [apply sfrom_sorted|apply sfrom_sorted|]. intros k. rewrite !sfrom_In. apply E.
Qed.

Lemma same_map {A B} (f : A -> B) (l l' : list A) : (forall x y, In x l -> In y l' -> f x = f y -> x = y) ->
  (same_elements (map f l) (map f l') <-> same_elements l l').
Proof.
  intros Inj. split; intros E x; split; intros Hx.
  - assert (Hm : In (f x) (map f l')) by (apply E, in_map, Hx). apply in_map_iff in Hm as (y & Ey & Hy).
    rewrite (Inj x y Hx Hy (eq_sym Ey)). exact Hy.
  - assert (Hm : In (f x) (map f l)) by (apply E, in_map, Hx). apply in_map_iff in Hm as (y & Ey & Hy).
    rewrite <- (Inj y x Hy Hx Ey). exact Hy.
  - apply in_map_iff in Hx as (y & <- & Hy). apply in_map, E, Hy.
  - apply in_map_iff in Hx as (y & <- & Hy). apply in_map, E, Hy.
Qed.

Lemma ordered_ext {A B} {OB : OrdKey B} (f : A -> B) (l l' : list A) :
  ordered_by f l -> ordered_by f l' -> same_elements l l' -> l = l'.
Proof.
  unfold ordered_by. revert l'. induction l as [|x l IH]; intros [|y l'] S1 S2 E.
  - reflexivity.
  - destruct (proj2 (E y) (or_introl eq_refl)).
  - destruct (proj1 (E x) (or_introl eq_refl)).
  - apply StronglySorted_inv in S1 as [S1 F1]. apply StronglySorted_inv in S2 as [S2 F2].
    rewrite Forall_forall in F1, F2.
    assert (Exy : x = y).
    { destruct (proj1 (E x) (or_introl eq_refl)) as [Hx|Hx]; [symmetry; exact Hx|].
      destruct (proj2 (E y) (or_introl eq_refl)) as [Hy|Hy]; [exact Hy|].
      pose proof (F2 _ Hx) as L1. pose proof (F1 _ Hy) as L2. pose proof (cmp_lt_trans _ _ _ L1 L2) as L3.
      rewrite cmp_refl in L3. discriminate L3. }
    subst y. f_equal. apply IH; [exact S1|exact S2|]. intros z. split; intros Hz.
    + destruct (proj1 (E z) (or_intror Hz)) as [<-|Hz']; [|exact Hz'].
      pose proof (F1 _ Hz) as L. rewrite cmp_refl in L. discriminate L.
    + destruct (proj2 (E z) (or_intror Hz)) as [<-|Hz']; [|exact Hz'].
      pose proof (F2 _ Hz) as L. rewrite cmp_refl in L. discriminate L.
Qed.

(** ** Disclosures *)
Lemma cons_inj {A} (x y : A) l m : x :: l = y :: m -> x = y /\ l = m.
Proof. intros E. injection E as -> ->. auto. Qed.
Lemma shown_inj H a b : conceal H a = conceal H b -> shown a = shown b -> a = b.
Proof. destruct a, b; cbn; intros E1 E2; try discriminate E2; congruence. Qed.

Lemma disclosure_inj H a b : collision_free H -> disclosure H a = disclosure H b -> a = b.
Proof.
  intros (_ & _ & Ho & _) E. unfold disclosure in E. injection E as E1 E2.
  unfold op_id in E1. apply Ho in E1. unfold conceal_op, set_assigns in E1. injection E1 as.
  assert (Ea : op_assigns a = op_assigns b).
  { match goal with E : conceal_assigns H _ = conceal_assigns H _ |- _ => rename E into E1 end.
    unfold conceal_assigns, mmap in E1. unfold mmap in E2.
    revert E1 E2. generalize (op_assigns a) (op_assigns b). intros l. induction l as [|[k t] l IH]; intros [|[k' t'] l'] E1 E2;
      try discriminate E1; [reflexivity|].
    cbn [map fst snd] in E1, E2. injection E1 as K1 K2 Kl K3. injection E2 as _ K4 K5. subst k'.
    f_equal; [|apply IH; assumption]. f_equal. destruct t as [kd l1], t' as [kd' l2]. cbn [ta_kind ta_list] in *.
    subst kd'. f_equal. clear -Kl K4. revert l2 Kl K4. induction l1 as [|x l1 IH]; intros [|y l2] Kl K4;
      try discriminate Kl; [reflexivity|]. cbn [map] in *. apply cons_inj in Kl as [X1 X2]. apply cons_inj in K4 as [X3 X4].
    f_equal; [apply (shown_inj H); assumption|apply IH; assumption]. }
  destruct a, b; cbn in *; congruence.
Qed.

(** ** Ids *)
Lemma cons_parts_same H D c c' : collision_free H -> digests_bind D ->
  (cons_parts H D c = cons_parts H D c' <-> cons_alike c c').
Proof.
  intros HC (Dd & Db & Ds & Dt & _). unfold cons_parts. split.
  - intros E. injection E as E1 E2 E3 E4 E5 E6 E7 E8 E9 E10 E11 E12. apply Dd in E3. apply (disclosure_inj H _ _ HC) in E3. apply Dt in E10.
    apply sfrom_same in E4, E5, E6, E8, E9, E11. constructor; try assumption.
    + apply same_map in E6; [exact E6|]. intros x y _ _ E. apply Dd in E. apply (disclosure_inj H _ _ HC E).
    + apply same_map in E5; [exact E5|]. intros x y _ _ E. apply Db, E.
    + apply same_map in E9; [exact E9|]. intros x y _ _ E. apply Ds, E.
  - intros [A1 A2 A3 A4 A5 A6 A7 A8 A9 A10 A11]. rewrite A1, A2, A5, A8, A11.
    apply sfrom_same in A6, A9, A10. rewrite A6, A9, A10.
    replace (sfrom (map (d_bundle D) (c_bundles c))) with (sfrom (map (d_bundle D) (c_bundles c'))).
    2:{ symmetry. apply sfrom_same, same_map; [|exact A4]. intros x y _ _ E. apply Db, E. }
    replace (sfrom (map (d_suppl D) (c_supplements c))) with (sfrom (map (d_suppl D) (c_supplements c'))).
    2:{ symmetry. apply sfrom_same, same_map; [|exact A7]. intros x y _ _ E. apply Ds, E. }
    replace (sfrom (map (fun e => d_disclose D (disclosure H e)) (c_extensions c))) with (sfrom (map (fun e => d_disclose D (disclosure H e)) (c_extensions c'))).
    2:{ symmetry. apply sfrom_same, same_map; [|exact A3]. intros x y _ _ E. apply Dd in E. apply (disclosure_inj H _ _ HC E). }
    reflexivity.
Qed.

Lemma kit_parts_same D k k' : digests_bind D -> (kit_parts D k = kit_parts D k' <-> kit_alike k k').
Proof.
  intros (_ & _ & Ds & Dt & _). unfold kit_parts. split.
  - intros E. injection E as E1 E2 E3 E4 E5 E6 E7. apply Dt in E5. apply sfrom_same in E1, E2, E3, E4, E6.
    constructor; try assumption. apply same_map in E4; [exact E4|]. intros x y _ _ E. apply Ds, E.
  - intros [A1 A2 A3 A4 A5 A6 A7]. rewrite A5, A7. apply sfrom_same in A1, A2, A3, A6. rewrite A1, A2, A3, A6.
    replace (sfrom (map (d_suppl D) (k_suppl k))) with (sfrom (map (d_suppl D) (k_suppl k'))); [reflexivity|].
    symmetry. apply sfrom_same, same_map; [|exact A4]. intros x y _ _ E. apply Ds, E.
Qed.

Lemma keys_same {V} (l l' : omap N V) : msorted l -> msorted l' -> ids_bind fst l l' ->
  same_elements (mkeys l) (mkeys l') -> l = l'.
Proof.
  intros S1 S2 B E. apply (ordered_ext fst); [exact S1|exact S2|]. apply (same_map fst); [exact B|exact E].
Qed.

Lemma cons_alike_eq H c c' : cons_alike c c' -> cons_ordered H c -> cons_ordered H c' ->
  schema_fits c -> schema_fits c' -> ifaces_fit c -> ifaces_fit c' ->
  ids_bind sch_id [c_schema c] [c_schema c'] ->
  ids_bind if_id (map fst (c_ifaces c)) (map fst (c_ifaces c')) -> ids_bind im_id (map snd (c_ifaces c)) (map snd (c_ifaces c')) ->
  ids_bind fst (c_scripts c) (c_scripts c') -> ids_bind fst (c_attachments c) (c_attachments c') -> c = c'.
Proof.
  intros [A1 A2 A3 A4 A5 A6 A7 A8 A9 A10 A11] [O1 O2 O3 O4 O5 O6] [P1 P2 P3 P4 P5 P6] F1 F2 F3 F4 B1 B2 B3 B4 B5.
  assert (Es : c_schema c = c_schema c').
  { apply B1; [left; reflexivity|left; reflexivity|]. unfold schema_fits in *. congruence. }
  assert (Ei : c_ifaces c = c_ifaces c').
  { apply (ordered_ext (fun p : IfaceRec * ImplRec => if_id (fst p))); [exact O3|exact P3|].
    apply (same_map (fun p : IfaceRec * ImplRec => im_id (snd p))); [|exact A6].
    intros [i im] [i' im'] Hx Hy E. cbn [fst snd] in E.
    assert (Em : im = im').
    { apply B3; [apply (in_map snd _ _ Hx)|apply (in_map snd _ _ Hy)|exact E]. }
    subst im'. f_equal. apply B2; [apply (in_map fst _ _ Hx)|apply (in_map fst _ _ Hy)|].
    rewrite <- (F3 _ _ Hx). apply (F4 _ _ Hy). }
  pose proof (ordered_ext _ _ _ O1 P1 A3) as Ee. pose proof (ordered_ext _ _ _ O2 P2 A4) as Eb.
  pose proof (ordered_ext _ _ _ O4 P4 A7) as Eu.
  pose proof (keys_same _ _ O5 P5 B4 A9) as Ek. pose proof (keys_same _ _ O6 P6 B5 A10) as Ea.
  destruct c, c'; cbn in *; congruence.
Qed.

Lemma kit_alike_eq k k' : kit_alike k k' -> kit_ordered k -> kit_ordered k' ->
  ids_bind if_id (k_ifaces k) (k_ifaces k') -> ids_bind sch_id (k_schemata k) (k_schemata k') ->
  ids_bind im_id (k_impls k) (k_impls k') -> ids_bind fst (k_scripts k) (k_scripts k') -> k = k'.
Proof.
  intros [A1 A2 A3 A4 A5 A6 A7] [O1 O2 O3 O4 O5] [P1 P2 P3 P4 P5] B1 B2 B3 B4.
  apply same_map in A1; [|exact B1]. apply same_map in A2; [|exact B2]. apply same_map in A3; [|exact B3].
  pose proof (ordered_ext _ _ _ O1 P1 A1). pose proof (ordered_ext _ _ _ O2 P2 A2). pose proof (ordered_ext _ _ _ O3 P3 A3).
  pose proof (ordered_ext _ _ _ O4 P4 A4). pose proof (keys_same _ _ O5 P5 B4 A6).
  destruct k, k'; cbn in *; congruence.
Qed.

(** ** Validation *)
Lemma add_warnings {A} (ok : A -> bool) (w : A -> Warning) l s :
  fold_left (fun s p => if ok p then s else add_warning s (w p)) l s =
  {| vs_failures := vs_failures s; vs_warnings := vs_warnings s ++ map w (filter (fun p => negb (ok p)) l) |}.
Proof.
  revert s. induction l as [|p l IH]; intros s; cbn [fold_left filter map].
  - rewrite app_nil_r. destruct s; reflexivity.
  - rewrite IH. destruct (ok p); cbn [negb]; [reflexivity|]. cbn [add_warning vs_failures vs_warnings map]. rewrite <- app_assoc. reflexivity.
Qed.

Lemma validate_eq H valid core want c :
  validate H valid core want c =
  let ws := (if Bool.eqb (c_transfer c) want then [] else [WrongType]) ++
            map (fun p => WrongIface (im_id (snd p)) (im_iface (snd p)) (if_id (fst p)))
              (filter (fun p => negb (if_id (fst p) =? im_iface (snd p))) (c_ifaces c)) ++
            map AbsentTerminal (filter (fun bid => negb (existsb (N.eqb bid) (index_bundle_ids H c))) (mkeys (c_terminals c))) in
  let s := {| vs_failures := vs_failures core; vs_warnings := vs_warnings core ++ ws |} in
  if valid core then Ok (s, c) else Err (s, c).
Proof.
  unfold validate. rewrite (add_warnings (fun p : IfaceRec * ImplRec => if_id (fst p) =? im_iface (snd p))).
  rewrite (add_warnings (fun bid => existsb (N.eqb bid) (index_bundle_ids H c))). cbn [vs_failures vs_warnings]. cbv zeta.
  destruct (Bool.eqb (c_transfer c) want); cbn [add_warning vs_failures vs_warnings app]; rewrite ?app_assoc_reverse; [reflexivity|].
  cbn [app]. rewrite <- ?app_assoc. reflexivity.
Qed.
