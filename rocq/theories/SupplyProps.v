(** * The supply of an asset: property C70 *)
From Coq Require Import Permutation.
From Verif Require Import Base StM Core HashExists Ser ContainerModel PIndexModel PIndexSpec PIndexProofs.
From Verif Require Import StateModel StateSpec StateProofs StateProps SupplySpec.
Local Open Scope N_scope.

(** ** Sums *)

Lemma sum_incl {A} (f : A -> N) (l l' : list A) : NoDup l -> incl l l' ->
  list_sum (map f l) <= list_sum (map f l').
Proof.
  revert l'. induction l as [|x l IH]; intros l' Nd Hi; simpl; [lia|].
  inversion_clear Nd as [|? ? Nin Nd'].
  destruct (in_split x l') as (u & v & ->); [apply Hi; left; reflexivity|].
  rewrite map_app, list_sum_app. simpl.
  assert (Hl : incl l (u ++ v)).
  { intros y Hy. assert (Hy' : In y (u ++ x :: v)) by (apply Hi; right; exact Hy).
    apply in_app_or in Hy'. apply in_or_app. destruct Hy' as [Hy'|[<-|Hy']]; auto. contradiction. }
  specialize (IH _ Nd' Hl). rewrite map_app, list_sum_app in IH. lia.
Qed.

Lemma sum_same {A} (f : A -> N) (l l' : list A) : NoDup l -> NoDup l' -> (forall x, In x l <-> In x l') ->
  list_sum (map f l) = list_sum (map f l').
Proof.
  intros N1 N2 E. apply N.le_antisymm; apply sum_incl; try assumption; intros x; apply E.
Qed.

Lemma sum_concat {A B} (f : A -> N) (g : B -> list A) (l : list B) :
  list_sum (map f (flat_map g l)) = list_sum (map (fun b => list_sum (map f (g b))) l).
Proof. induction l as [|b l IH]; simpl; [reflexivity|]. rewrite map_app, list_sum_app, IH. reflexivity. Qed.

Lemma sum_le {A} (f g : A -> N) l : (forall x, In x l -> f x <= g x) -> list_sum (map f l) <= list_sum (map g l).
Proof.
  intros E. induction l as [|x l IH]; simpl; [lia|]. pose proof (E x (or_introl eq_refl)).
  assert (list_sum (map f l) <= list_sum (map g l)) by (apply IH; intros y Hy; apply E; right; exact Hy). lia.
Qed.

Lemma sum_plus {A} (f g : A -> N) l : list_sum (map (fun x => f x + g x) l) = list_sum (map f l) + list_sum (map g l).
Proof. induction l as [|x l IH]; simpl; [reflexivity|]. rewrite IH. lia. Qed.

Lemma NoDup_flat {A B} (g : B -> list A) (l : list B) : NoDup l -> (forall b, In b l -> NoDup (g b)) ->
  (forall b b' x, In b l -> In b' l -> In x (g b) -> In x (g b') -> b = b') -> NoDup (flat_map g l).
Proof.
  induction l as [|b l IH]; intros Nd Hg Hd; simpl; [constructor|].
  inversion_clear Nd as [|? ? Nin Nd'].
  assert (IH' : NoDup (flat_map g l)).
  { apply IH; [exact Nd'|intros; apply Hg; right; assumption|].
    intros b1 b2 x H1 H2. apply Hd; right; assumption. }
  assert (D : forall x, In x (g b) -> ~ In x (flat_map g l)).
  { intros x Hx Hy. apply in_flat_map in Hy. destruct Hy as (b' & Hb & Hy).
    assert (b = b') by (eapply Hd; [left; reflexivity|right; exact Hb|exact Hx|exact Hy]). subst b'. contradiction. }
  pose proof (Hg b (or_introl eq_refl)) as Nb. revert Nb D. generalize (g b) as u.
  induction u as [|x u IHu]; intros Nb D; simpl; [exact IH'|].
  inversion_clear Nb as [|? ? Nx Nu]. constructor.
  - intros Hx. apply in_app_or in Hx. destruct Hx as [Hx|Hx]; [contradiction|].
    apply (D x); [left; reflexivity|exact Hx].
  - apply IHu; [exact Nu|]. intros y Hy. apply D. right; exact Hy.
Qed.

Lemma NoDup_map_inj {A B} (f : A -> B) l : NoDup (map f l) -> NoDup l.
Proof.
  induction l as [|x l IH]; simpl; intros Nd; [constructor|]. inversion_clear Nd as [|? ? Nin Nd'].
  constructor; [|apply IH; exact Nd']. intros Hx. apply Nin. apply in_map. exact Hx.
Qed.

Lemma NoDup_map_on {A B} (f : A -> B) l : NoDup l ->
  (forall x y, In x l -> In y l -> f x = f y -> x = y) -> NoDup (map f l).
Proof.
  induction l as [|x l IH]; simpl; intros Nd Hi; [constructor|]. inversion_clear Nd as [|? ? Nin Nd'].
  constructor; [|apply IH; [exact Nd'|intros; apply Hi; auto]].
  intros Hx. apply in_map_iff in Hx. destruct Hx as (y & Ey & Hy).
  assert (y = x) by (apply Hi; auto). subst y. contradiction.
Qed.

Lemma NoDup_app_disj {A} (u v : list A) : NoDup u -> NoDup v -> (forall x, In x u -> ~ In x v) -> NoDup (u ++ v).
Proof.
  induction u as [|x u IH]; simpl; intros Nu Nv D; [exact Nv|]. inversion_clear Nu as [|? ? Nx Nu'].
  constructor; [|apply IH; auto]. intros Hx. apply in_app_or in Hx. destruct Hx as [Hx|Hx]; [contradiction|].
  apply (D x); auto.
Qed.

(** ** Outputs *)

Lemma amounts_of_In H o ty x : op_sorted o ->
  (In x (amounts_of H o ty) <->
   exists ta no a, In (ty, ta) (op_assigns o) /\ ta_kind ta = KFungible /\ nth_error (ta_list ta) no = Some a /\
     x = {| oo_op := op_id H o; oo_ty := ty; oo_no := N.of_nat no |}).
Proof.
  intros [S _]. unfold amounts_of. split.
  - destruct (mget ty (op_assigns o)) as [[k l]|] eqn:Em; [|intros []]. destruct k; try (intros []).
    intros Hx. apply in_map_iff in Hx. destruct Hx as (no & <- & Hno). apply in_seq in Hno.
    destruct (nth_error l no) as [a|] eqn:En; [|apply nth_error_None in En; lia].
    exists {| ta_kind := KFungible; ta_list := l |}, no, a. apply mget_In in Em. auto.
  - intros (ta & no & a & Hin & Hk & Hn & ->). apply In_mget in Hin; [|exact S]. rewrite Hin.
    destruct ta as [k l]. simpl in Hk, Hn. subst k. apply in_map_iff. exists no. split; [reflexivity|].
    apply in_seq. split; [lia|]. simpl. apply nth_error_Some. congruence.
Qed.

Lemma amounts_of_NoDup H o ty : NoDup (amounts_of H o ty).
Proof.
  unfold amounts_of. destruct (mget ty (op_assigns o)) as [[[] l]|]; try constructor.
  apply NoDup_map_on; [apply seq_NoDup|]. intros x y _ _ E.
  apply (f_equal oo_no) in E. simpl in E. apply Nat2N.inj in E. exact E.
Qed.

Lemma amounts_of_op H o ty x : In x (amounts_of H o ty) -> oo_op x = op_id H o.
Proof.
  unfold amounts_of. destruct (mget ty (op_assigns o)) as [[[] l]|]; try (intros []).
  intros Hx. apply in_map_iff in Hx. destruct Hx as (no & <- & _). reflexivity.
Qed.

Lemma same_id_amounts H o o' ty : collision_free H -> op_id H o = op_id H o' -> amounts_of H o ty = amounts_of H o' ty.
Proof.
  intros HC E. pose proof (same_id_conceal _ _ _ HC E) as Ec. apply (f_equal op_assigns) in Ec. simpl in Ec.
  assert (Em : mget ty (conceal_assigns H (op_assigns o)) = mget ty (conceal_assigns H (op_assigns o'))) by congruence.
  unfold conceal_assigns in Em. rewrite !mget_mmap in Em. unfold amounts_of.
  destruct (mget ty (op_assigns o)) as [[k l]|], (mget ty (op_assigns o')) as [[k' l']|]; simpl in Em; try discriminate; [|reflexivity].
  apply Some_inj in Em. injection Em as Ek El. subst k'. rewrite E.
  apply (f_equal (@length _)) in El. rewrite !map_length in El. rewrite El. reflexivity.
Qed.

Lemma same_id_inputs H o o' : collision_free H -> op_id H o = op_id H o' -> op_inputs o = op_inputs o'.
Proof. intros HC E. pose proof (same_id_conceal _ _ _ HC E) as Ec. apply (f_equal op_inputs) in Ec. exact Ec. Qed.

(** One output, one witness: one allocation *)
Lemma reveals_one H o o' ow ow' k a a' : collision_free H -> op_sorted o -> op_sorted o' ->
  reveals H o ow k a -> reveals H o' ow' k a' -> oa_opout a = oa_opout a' -> op_witness ow = op_witness ow' -> a = a'.
Proof.
  intros HC [S _] [S' _] (ty & ta & no & seal & st & Hin & Hk & Hn & Ho & E1 & E2 & E3)
    (ty' & ta' & no' & seal' & st' & Hin' & Hk' & Hn' & Ho' & E1' & E2' & E3') So Ew.
  rewrite E1, E1' in So. injection So as Ei Et En. apply Nat2N.inj in En. subst no' ty'.
  pose proof (same_id_conceal _ _ _ HC Ei) as Ec.
  apply (f_equal op_assigns) in Ec. simpl in Ec.
  apply In_mget in Hin; [|exact S]. apply In_mget in Hin'; [|exact S'].
  assert (Em : mget ty (conceal_assigns H (op_assigns o)) = mget ty (conceal_assigns H (op_assigns o'))) by congruence.
  unfold conceal_assigns in Em. rewrite !mget_mmap, Hin, Hin' in Em. simpl in Em. apply Some_inj in Em.
  injection Em as Ek El.
  assert (En : nth_error (map (conceal H) (ta_list ta)) no = nth_error (map (conceal H) (ta_list ta')) no) by congruence.
  rewrite (map_nth_error _ _ _ Hn), (map_nth_error _ _ _ Hn') in En. simpl in En. apply Some_inj in En.
  injection En as Es Est. destruct HC as (Cs & Cst & _).
  apply Cs in Es. apply Cst in Est. subst seal' st'.
  rewrite Ew in Ho. pose proof (seal_output_fun _ _ _ _ Ho Ho') as Eo.
  destruct a, a'; simpl in *; congruence.
Qed.

Lemma is_spent_In ops x : is_spent ops x = true <-> exists o, In o ops /\ In x (op_inputs o).
Proof.
  unfold is_spent. rewrite existsb_exists. split; intros (o & Ho & Hx); exists o; (split; [exact Ho|]).
  - apply existsb_exists in Hx. destruct Hx as (y & Hy & E). apply keqb_true in E. subst y. exact Hy.
  - apply existsb_exists. exists x. split; [exact Hx|apply keqb_refl].
Qed.

Section Facts.
Context {OG : OrdKey GlobalOut} (H : Hashes) (history : list StateCall) (cid : N) (c : MemContract)
  (ty : N) (ops : list Operation) (worth : Opout -> N) (issued : Operation -> N).
Context (HC : collision_free H) (HS : history_sorted H history)
  (Ec : contract_state (state_after H history) cid = Ok c)
  (En : enumerates H history cid ops) (Hw : one_live_witness H history cid)
  (Ht : truthful H history cid ty worth) (Hv : valid_supply H ops ty worth issued).

Let U := unspent ops ty (outs_all KFungible c).
Let O := flat_map (fun o => amounts_of H o ty) ops.
Let S := flat_map (fun o => spent_of o ty) ops.

Lemma known_sorted ow o : known_live H history cid ow o -> op_sorted o.
Proof. intros (call & Hin & Hi & _). exact (HS _ _ _ _ Hin Hi). Qed.

Lemma U_spec a : In a U -> exists ow o, known_live H history cid ow o /\ reveals H o ow KFungible a /\
  oo_ty (oa_opout a) = ty /\ is_spent ops (oa_opout a) = false.
Proof.
  intros Ha. apply filter_In in Ha. destruct Ha as [Ha Hf]. apply andb_true_iff in Hf. destruct Hf as [Hf Hn].
  apply N.eqb_eq in Hf. apply negb_true_iff in Hn.
  destruct (proj1 (C27_only_imported OG H history cid c KFungible Ec) a Ha) as [(call & ow & o & Hin & Hi & Hr) Hl].
  exists ow, o. split; [|auto]. exists call. split; [exact Hin|]. split; [exact Hi|].
  destruct Hr as (? & ? & ? & ? & ? & _ & _ & _ & _ & _ & _ & <-). exact Hl.
Qed.

Lemma U_worth : total_of U = worth_of worth (map oa_opout U).
Proof.
  unfold total_of, worth_of. rewrite map_map. f_equal. apply map_ext_in. intros a Ha.
  destruct (U_spec a Ha) as (ow & o & Hk & (ty' & ta & no & seal & st & Hin & Kk & Hn & _ & E1 & E2 & _) & Ety & _).
  rewrite E1 in Ety. simpl in Ety. subst ty'. rewrite E1, E2. symmetry.
  eapply Ht; [exact Hk|exact Hin|exact Kk|exact Hn|reflexivity].
Qed.

Lemma U_NoDup : NoDup (map oa_opout U).
Proof.
  apply NoDup_map_on.
  - apply NoDup_filter. apply (NoDup_map_inj _ _ (proj2 (C27_only_imported OG H history cid c KFungible Ec))).
  - intros a b Ha Hb E.
    destruct (U_spec a Ha) as (ow & o & Hk & Hr & _ & _). destruct (U_spec b Hb) as (ow' & o' & Hk' & Hr' & _ & _).
    apply (reveals_one H o o' ow ow' KFungible a b HC (known_sorted _ _ Hk) (known_sorted _ _ Hk') Hr Hr' E).
    apply (Hw _ _ _ _ Hk Hk').
    destruct Hr as (? & ? & ? & ? & ? & _ & _ & _ & _ & E1 & _), Hr' as (? & ? & ? & ? & ? & _ & _ & _ & _ & E1' & _).
    rewrite E1, E1' in E. injection E as Ei _ _. exact Ei.
Qed.

Lemma U_in_O x : In x (map oa_opout U) -> In x O.
Proof.
  intros Hx. apply in_map_iff in Hx. destruct Hx as (a & <- & Ha).
  destruct (U_spec a Ha) as (ow & o & Hk & (ty' & ta & no & seal & st & Hin & Kk & Hn & _ & E1 & _) & Ety & _).
  rewrite E1 in Ety. simpl in Ety. subst ty'.
  destruct En as (_ & _ & Hall). pose proof (Hall _ _ Hk) as Hid. apply in_map_iff in Hid. destruct Hid as (o' & Eid & Ho').
  apply in_flat_map. exists o'. split; [exact Ho'|]. rewrite (same_id_amounts H o' o ty HC Eid).
  apply amounts_of_In; [exact (known_sorted _ _ Hk)|]. eauto 10.
Qed.

Lemma S_In x : In x S <-> oo_ty x = ty /\ is_spent ops x = true.
Proof.
  unfold S. rewrite in_flat_map, is_spent_In. unfold spent_of. split.
  - intros (o & Ho & Hx). apply filter_In in Hx. destruct Hx as [Hx E]. apply N.eqb_eq in E. eauto.
  - intros (E & o & Ho & Hx). exists o. split; [exact Ho|]. apply filter_In. split; [exact Hx|apply N.eqb_eq, E].
Qed.

Lemma S_NoDup : NoDup S.
Proof.
  destruct En as (Nd & _), Hv as (_ & _ & H1 & H2). apply NoDup_flat.
  - exact (NoDup_map_inj _ _ Nd).
  - intros o Ho. apply NoDup_filter, H2, Ho.
  - intros o o' x. apply H1.
Qed.

Lemma O_NoDup : NoDup O.
Proof.
  destruct En as (Nd & _). apply NoDup_flat.
  - exact (NoDup_map_inj _ _ Nd).
  - intros; apply amounts_of_NoDup.
  - intros o o' x Ho Ho' Hx Hx'. apply amounts_of_op in Hx, Hx'. rewrite Hx in Hx'. clear Hx.
    revert Nd o o' Ho Ho' Hx'. clear. induction ops as [|p l IH]; simpl; intros Nd o o' Ho Ho' E; [contradiction|].
    inversion_clear Nd as [|? ? Nin Nd'].
    destruct Ho as [<-|Ho], Ho' as [<-|Ho']; [reflexivity| | |apply IH; assumption].
    + exfalso. apply Nin. rewrite E. apply in_map, Ho'.
    + exfalso. apply Nin. rewrite <- E. apply in_map, Ho.
Qed.

Lemma S_in_O x : In x S -> In x O.
Proof.
  intros Hx. apply in_flat_map in Hx. destruct Hx as (o & Ho & Hx). destruct Hv as (_ & Hr & _).
  destruct (Hr o x Ho Hx) as (o' & Ho' & Hx'). apply in_flat_map. eauto.
Qed.

Lemma US_disjoint x : In x (map oa_opout U) -> ~ In x S.
Proof.
  intros Hx Hs. apply in_map_iff in Hx. destruct Hx as (a & <- & Ha).
  destruct (U_spec a Ha) as (_ & _ & _ & _ & _ & Hn). apply S_In in Hs. destruct Hs. congruence.
Qed.

Lemma US_le : worth_of worth (map oa_opout U) + worth_of worth S <= worth_of worth O.
Proof.
  unfold worth_of. rewrite <- list_sum_app, <- map_app. apply sum_incl.
  - apply NoDup_app_disj; [exact U_NoDup|exact S_NoDup|exact US_disjoint].
  - intros x Hx. apply in_app_or in Hx. destruct Hx; [apply U_in_O|apply S_in_O]; assumption.
Qed.

Lemma supply_bound : total_of U <= list_sum (map issued ops).
Proof.
  rewrite U_worth. pose proof US_le as L. unfold worth_of in L at 2 3. unfold O, S in L. rewrite !sum_concat in L.
  destruct Hv as (Hb & _). pose proof (sum_le _ _ _ Hb) as B. unfold worth_of in B.
  rewrite (sum_plus (fun o => list_sum (map worth (spent_of o ty))) issued) in B. lia.
Qed.

Context (Hok : sall_succeed H ms_empty history) (HW : one_witness H history) (Hx : exact_supply H ops ty worth issued).

(** No operation with a seal on no output is imported. *)
Lemma calls_fit l s call cid' ow o : sall_succeed H s l -> In call l -> imports H call cid' ow o -> op_fits ow o.
Proof.
  revert s. induction l as [|x l IH]; intros s Hl Hin Hi; [destruct Hin|]. destruct Hl as [[s' E] Hl].
  destruct Hin as [->|Hin]; [|exact (IH _ Hl Hin Hi)]. exact (needs_call H call s s' _ E cid' ow o Hi).
Qed.
Lemma Hseal ow o ta no seal st : known_live H history cid ow o -> In (ty, ta) (op_assigns o) ->
  nth_error (ta_list ta) no = Some (Revealed seal st) -> exists out, seal_output (op_witness ow) seal out.
Proof.
  intros (call & Hin & Hi & _) Ha Hn. destruct (calls_fit history ms_empty call cid ow o Hok Hin Hi _ _ _ _ _ Ha Hn) as [out E].
  exists out. apply assign_output_spec, E.
Qed.

Lemma O_in_US x : In x O -> In x (map oa_opout U ++ S).
Proof.
  intros HO. pose proof HO as HO'. apply in_flat_map in HO. destruct HO as (o & Ho & Hxo).
  destruct En as (_ & Hall & _). destruct (Hall o Ho) as (ow & Hk).
  apply (amounts_of_In H o ty x (known_sorted _ _ Hk)) in Hxo. destruct Hxo as (ta & no & a & Hin & Kk & Hn & ->).
  destruct (Hx o Ho) as [_ Hsh]. destruct (Hsh ta a Hin (nth_error_In _ _ Hn)) as (seal & st & ->).
  destruct (Hseal ow o ta no seal st Hk Hin Hn) as (out & Hout).
  apply in_or_app. destruct (is_spent ops {| oo_op := op_id H o; oo_ty := ty; oo_no := N.of_nat no |}) eqn:Es.
  - right. apply S_In. split; [reflexivity|exact Es].
  - left. apply in_map_iff.
    exists {| oa_opout := {| oo_op := op_id H o; oo_ty := ty; oo_no := N.of_nat no |}; oa_seal := out;
              oa_state := st; oa_witness := op_witness ow |}. split; [reflexivity|].
    apply filter_In. cbn [oa_opout oo_ty]. rewrite N.eqb_refl, Es. split; [|reflexivity].
    destruct Hk as (call & Hc & Hi & Hl).
    apply (C27_allocations_partial OG H history cid c KFungible _ HC HS Hok HW Ec). cbn [oa_witness]. split; [|exact Hl].
    exists call, ow, o. split; [exact Hc|]. split; [exact Hi|].
    exists ty, ta, no, seal, st. auto 10.
Qed.

Lemma supply_exact : total_of U = list_sum (map issued ops).
Proof.
  rewrite U_worth. unfold worth_of at 1.
  assert (E : list_sum (map worth (map oa_opout U ++ S)) = list_sum (map worth O)).
  { apply sum_same.
    - apply NoDup_app_disj; [exact U_NoDup|exact S_NoDup|exact US_disjoint].
    - exact O_NoDup.
    - intros x. split; [|apply O_in_US]. intros Hi. apply in_app_or in Hi. destruct Hi; [apply U_in_O|apply S_in_O]; assumption. }
  rewrite map_app, list_sum_app in E. unfold O, S in E. rewrite !sum_concat in E.
  assert (B : list_sum (map (fun o => list_sum (map worth (amounts_of H o ty))) ops) =
              list_sum (map (fun o => list_sum (map worth (spent_of o ty)) + issued o) ops)).
  { f_equal. apply map_ext_in. intros o Ho. exact (proj1 (Hx o Ho)). }
  rewrite (sum_plus (fun o => list_sum (map worth (spent_of o ty))) issued) in B. lia.
Qed.
End Facts.

(** ** C70 *)

(** The amounts which are reported, and which no operation known and not archived spends,
    add up to no more than these operations were allowed to issue. *)
Theorem C70_no_inflation_partial : forall (OG : OrdKey GlobalOut) H history cid c ty ops worth issued,
  collision_free H -> history_sorted H history ->
  contract_state (state_after H history) cid = Ok c ->
  enumerates H history cid ops -> one_live_witness H history cid ->
  truthful H history cid ty worth -> valid_supply H ops ty worth issued ->
  total_of (unspent ops ty (outs_all KFungible c)) <= list_sum (map issued ops).
Proof. intros OG H history cid c ty ops worth issued. apply supply_bound. Qed.

(** Where all is shown and nothing burnt, they are what was issued. *)
Theorem C70_supply_partial : forall (OG : OrdKey GlobalOut) H history cid c ty ops worth issued,
  collision_free H -> history_sorted H history -> sall_succeed H ms_empty history -> one_witness H history ->
  contract_state (state_after H history) cid = Ok c ->
  enumerates H history cid ops -> one_live_witness H history cid ->
  truthful H history cid ty worth -> valid_supply H ops ty worth issued -> exact_supply H ops ty worth issued ->
  total_of (unspent ops ty (outs_all KFungible c)) = list_sum (map issued ops).
Proof.
  intros OG H history cid c ty ops worth issued HC HS Hok HW Ec En Hw Ht Hv Hx.
  exact (supply_exact H history cid c ty ops worth issued HC HS Ec En Hw Ht Hv Hok HW Hx).
Qed.

(** *** A contract issuing 100, then split into 60 and 40 *)

Definition sp_seal (t : option N) (v : N) : Seal :=
  {| s_layer := Bitcoin; s_method := OpretFirst; s_txid := t; s_vout := v; s_blinding := v |}.
Definition sp_op (k : OpKind) (ins : oset Opout) (l : list Assign) : Operation :=
  {| op_kind := k; op_head := 0; op_contract := 0; op_ty := 3; op_nonce := 0; op_meta := [];
     op_globals := []; op_inputs := ins; op_redeemed := [];
     op_assigns := [(4, {| ta_kind := KFungible; ta_list := l |})]; op_valencies := [] |}.
Definition sp_genesis : Operation := sp_op OpGenesis [] [Revealed (sp_seal (Some 70) 0) (RAmount 100 0 0)].
Definition sp_cid : N := op_id bit_hashes sp_genesis.
Definition sp_split : Operation := sp_op OpTransition [{| oo_op := sp_cid; oo_ty := 4; oo_no := 0 |}]
  [Revealed (sp_seal (Some 71) 0) (RAmount 60 0 0); Revealed (sp_seal None 1) (RAmount 40 0 0)].
Definition sp_id : N := op_id bit_hashes sp_split.
Definition sp_bundle : Bundle :=
  {| b_method := OpretFirst; b_inputs := [(0, sp_id)]; b_known := [(sp_id, sp_split)] |}.
Definition sp_cons : Consignment :=
  {| c_transfer := false; c_terminals := []; c_genesis := sp_genesis; c_extensions := []; c_bundles := [];
     c_schema := {| sch_id := 0; sch_globals := []; sch_libs := []; sch_types := [] |};
     c_ifaces := []; c_supplements := []; c_types := []; c_scripts := []; c_attachments := [];
     c_signatures := [] |}.
Definition sp_calls (ws : list N) : list StateCall :=
  StConsignment sp_cons st_pending :: map (fun w => StBundle sp_cid sp_bundle (st_w w) st_pending) ws.
Definition sp_ops : list Operation := [sp_genesis; sp_split].
Definition sp_worth (x : Opout) : N :=
  if oo_op x =? sp_cid then 100 else if oo_no x =? 0 then 60 else 40.
Definition sp_issued (o : Operation) : N := match op_kind o with OpGenesis => 100 | _ => 0 end.

Lemma sp_imports ws call cid ow o : In call (sp_calls ws) -> imports bit_hashes call cid ow o ->
  cid = sp_cid /\ ((ow = OWGenesis /\ o = sp_genesis) \/ (o = sp_split /\ exists w, In w ws /\ ow = OWTransition (st_w w) 3)).
Proof.
  intros [<-|Hin].
  - intros [-> [[-> ->]|[(wb & [] & _)|(w & [] & _)]]]. split; [reflexivity|auto].
  - apply in_map_iff in Hin. destruct Hin as (w & <- & Hw). intros (-> & [<-|[]] & ->). split; [reflexivity|]. right. eauto.
Qed.
Lemma sp_differ : op_id bit_hashes sp_genesis <> op_id bit_hashes sp_split.
Proof. vm_compute. discriminate. Qed.
Lemma sp_sorted ws : history_sorted bit_hashes (sp_calls ws).
Proof.
  intros call cid ow o Hin Hi. destruct (sp_imports _ _ _ _ _ Hin Hi) as [_ [[_ ->]|[-> _]]]; split; repeat constructor.
Qed.
Lemma sp_amounts_g : amounts_of bit_hashes sp_genesis 4 = [{| oo_op := sp_cid; oo_ty := 4; oo_no := 0 |}].
Proof. reflexivity. Qed.
Lemma sp_amounts_s : amounts_of bit_hashes sp_split 4 =
  [{| oo_op := sp_id; oo_ty := 4; oo_no := 0 |}; {| oo_op := sp_id; oo_ty := 4; oo_no := 1 |}].
Proof. reflexivity. Qed.
Lemma sp_spent_s : spent_of sp_split 4 = [{| oo_op := sp_cid; oo_ty := 4; oo_no := 0 |}].
Proof. reflexivity. Qed.
Lemma sp_worth_g : sp_worth {| oo_op := sp_cid; oo_ty := 4; oo_no := 0 |} = 100.
Proof. unfold sp_worth. cbn [oo_op]. rewrite N.eqb_refl. reflexivity. Qed.
Lemma sp_worth_s n : sp_worth {| oo_op := sp_id; oo_ty := 4; oo_no := n |} = if n =? 0 then 60 else 40.
Proof.
  unfold sp_worth. cbn [oo_op oo_no]. destruct (sp_id =? sp_cid) eqn:E; [|reflexivity].
  apply N.eqb_eq in E. exfalso. apply sp_differ. symmetry. exact E.
Qed.
Lemma sp_valid : valid_supply bit_hashes sp_ops 4 sp_worth sp_issued /\ exact_supply bit_hashes sp_ops 4 sp_worth sp_issued.
Proof.
  assert (B : forall o, In o sp_ops ->
    worth_of sp_worth (amounts_of bit_hashes o 4) = worth_of sp_worth (spent_of o 4) + sp_issued o).
  { intros o [<-|[<-|[]]].
    - unfold worth_of. rewrite sp_amounts_g. cbn [map]. rewrite sp_worth_g. reflexivity.
    - unfold worth_of. rewrite sp_amounts_s, sp_spent_s. cbn [map]. rewrite !sp_worth_s, sp_worth_g. reflexivity. }
  split; [|].
  - split; [intros o Ho; rewrite (B o Ho); lia|]. split.
    + intros o x [<-|[<-|[]]]; [intros []|]. intros [<-|[]]. exists sp_genesis. split; [left; reflexivity|].
      rewrite sp_amounts_g. left. reflexivity.
    + split; [|intros o [<-|[<-|[]]]; repeat constructor; intros []].
      intros o o' x [<-|[<-|[]]] [<-|[<-|[]]]; [reflexivity|intros []|intros _ []|reflexivity].
  - intros o Ho. split; [exact (B o Ho)|]. destruct Ho as [<-|[<-|[]]]; intros ta a [E|[]]; apply (f_equal snd) in E; cbn [snd] in E; subst ta.
    + intros [<-|[]]. eauto.
    + intros [<-|[<-|[]]]; eauto.
Qed.

Section Sp.
Context {OG : OrdKey GlobalOut}.
Lemma sp_truth ws : truthful bit_hashes (sp_calls ws) sp_cid 4 sp_worth.
Proof.
  intros ow o ta no a st (call & Hin & Hi & _) Ha _ Hn Hr.
  destruct (sp_imports _ _ _ _ _ Hin Hi) as [_ [[_ ->]|[-> _]]]; destruct Ha as [E|[]]; apply (f_equal snd) in E; cbn [snd] in E; subst ta;
    cbn [ta_list] in Hn.
  - destruct no as [|[|no]]; cbn [nth_error] in Hn; try discriminate. apply Some_inj in Hn. subst a.
    cbn [revealed_state] in Hr. apply Some_inj in Hr. subst st. apply sp_worth_g.
  - destruct no as [|[|[|no]]]; cbn [nth_error] in Hn; try discriminate; apply Some_inj in Hn; subst a;
    cbn [revealed_state] in Hr; apply Some_inj in Hr; subst st; fold sp_id; rewrite sp_worth_s; reflexivity.
Qed.
Lemma sp_enum w ws : live (state_after bit_hashes (sp_calls (w :: ws))) (Some (st_w w)) ->
  enumerates bit_hashes (sp_calls (w :: ws)) sp_cid sp_ops.
Proof.
  intros Hl. split; [|split].
  - cbn [sp_ops map]. constructor; [|constructor; [intros []|constructor]].
    intros [E|[]]. apply sp_differ. symmetry. exact E.
  - intros o [<-|[<-|[]]].
    + exists OWGenesis. exists (StConsignment sp_cons st_pending). split; [left; reflexivity|]. split; [|exact Logic.I].
      split; [reflexivity|]. left. auto.
    + exists (OWTransition (st_w w) 3). exists (StBundle sp_cid sp_bundle (st_w w) st_pending).
      split; [right; left; reflexivity|]. split; [|exact Hl]. split; [reflexivity|]. split; [left; reflexivity|reflexivity].
  - intros ow o (call & Hin & Hi & _). destruct (sp_imports _ _ _ _ _ Hin Hi) as [_ [[_ ->]|[-> _]]]; [left|right; left]; reflexivity.
Qed.
End Sp.

(** The hypotheses hold, and 100 in two unspent allocations are reported. *)
Example C70_example : forall OG : OrdKey GlobalOut, let history := sp_calls [8] in
  collision_free bit_hashes /\ history_sorted bit_hashes history /\ sall_succeed bit_hashes ms_empty history /\
  one_witness bit_hashes history /\ enumerates bit_hashes history sp_cid sp_ops /\
  one_live_witness bit_hashes history sp_cid /\ truthful bit_hashes history sp_cid 4 sp_worth /\
  valid_supply bit_hashes sp_ops 4 sp_worth sp_issued /\ exact_supply bit_hashes sp_ops 4 sp_worth sp_issued /\
  exists c, contract_state (state_after bit_hashes history) sp_cid = Ok c /\
  length (outs_all KFungible c) = 3%nat /\ total_of (outs_all KFungible c) = 200 /\
  length (unspent sp_ops 4 (outs_all KFungible c)) = 2%nat /\
  total_of (unspent sp_ops 4 (outs_all KFungible c)) = 100 /\ list_sum (map sp_issued sp_ops) = 100.
Proof.
  intros OG history. split; [exact bit_collision_free|]. split; [apply sp_sorted|].
  assert (Hl : live (state_after bit_hashes history) (Some (st_w 8))).
  { exists Tentative. split; [vm_compute; reflexivity|discriminate]. }
  split; [|split; [|split; [|split; [|split; [|split; [|split]]]]]].
  - split; [eexists; vm_compute; reflexivity|]. split; [eexists; vm_compute; reflexivity|exact Logic.I].
  - intros call call' cid ow ow' o o' Hin Hin' Hi Hi' E. left.
    destruct (sp_imports _ _ _ _ _ Hin Hi) as [_ [[-> ->]|(-> & w & [<-|[]] & ->)]];
      destruct (sp_imports _ _ _ _ _ Hin' Hi') as [_ [[-> ->]|(-> & w' & [<-|[]] & ->)]]; try reflexivity.
    + exfalso. apply sp_differ. exact E.
    + exfalso. apply sp_differ. symmetry. exact E.
  - apply sp_enum, Hl.
  - intros ow ow' o o' (call & Hin & Hi & _) (call' & Hin' & Hi' & _) E.
    destruct (sp_imports _ _ _ _ _ Hin Hi) as [_ [[-> ->]|(-> & w & [<-|[]] & ->)]];
      destruct (sp_imports _ _ _ _ _ Hin' Hi') as [_ [[-> ->]|(-> & w' & [<-|[]] & ->)]]; try reflexivity.
    + exfalso. apply sp_differ. exact E.
    + exfalso. apply sp_differ. symmetry. exact E.
  - apply sp_truth.
  - apply sp_valid.
  - apply sp_valid.
  - eexists. split; [vm_compute; reflexivity|]. vm_compute. auto 10.
Qed.

(** What has been spent is still reported: the allocations reported add up to more than was
    issued. *)
Theorem C70_spent_reported_refuted : forall OG : OrdKey GlobalOut, ~ forall H history cid c ty ops worth issued,
  collision_free H -> history_sorted H history -> sall_succeed H ms_empty history -> one_witness H history ->
  contract_state (state_after H history) cid = Ok c ->
  enumerates H history cid ops -> one_live_witness H history cid ->
  truthful H history cid ty worth -> valid_supply H ops ty worth issued ->
  (forall a, In a (outs_all KFungible c) -> oo_ty (oa_opout a) = ty -> is_spent ops (oa_opout a) = false) \/
  total_of (outs_all KFungible c) <= list_sum (map issued ops).
Proof.
  intros OG Bad.
  destruct (C70_example OG) as (HC & HS & Hok & HW & He & Hw & Ht & Hv & _ & c & Ec & _ & T & _ & _ & Ti).
  destruct (Bad _ _ _ c 4 sp_ops sp_worth sp_issued HC HS Hok HW Ec He Hw Ht Hv) as [Hn|Hn].
  - assert (Ha : exists a, In a (outs_all KFungible c) /\ oa_opout a = {| oo_op := sp_cid; oo_ty := 4; oo_no := 0 |}).
    { exists {| oa_opout := {| oo_op := sp_cid; oo_ty := 4; oo_no := 0 |};
        oa_seal := {| os_layer := Bitcoin; os_method := OpretFirst; os_txid := 70; os_vout := 0 |};
        oa_state := RAmount 100 0 0; oa_witness := None |}. split; [|reflexivity].
      apply (C27_allocations_partial OG bit_hashes (sp_calls [8]) sp_cid c KFungible _ HC HS Hok HW Ec). split; [|exact Logic.I].
      exists (StConsignment sp_cons st_pending), OWGenesis, sp_genesis. split; [left; reflexivity|].
      split; [split; [reflexivity|left; auto]|].
      exists 4, {| ta_kind := KFungible; ta_list := [Revealed (sp_seal (Some 70) 0) (RAmount 100 0 0)] |}, 0%nat,
        (sp_seal (Some 70) 0), (RAmount 100 0 0).
      split; [left; reflexivity|]. split; [reflexivity|]. split; [reflexivity|].
      split; [apply assign_output_spec; reflexivity|]. auto. }
    destruct Ha as (a & Ha & Eo). specialize (Hn a Ha). rewrite Eo in Hn. specialize (Hn eq_refl).
    assert (Hs : is_spent sp_ops {| oo_op := sp_cid; oo_ty := 4; oo_no := 0 |} = true).
    { apply is_spent_In. exists sp_split. split; [right; left; reflexivity|left; reflexivity]. }
    congruence.
  - rewrite T, Ti in Hn. lia.
Qed.

(** And an operation published by two witnesses which are both held possible counts twice. *)
Theorem C70_two_witnesses_refuted : forall OG : OrdKey GlobalOut, ~ forall H history cid c ty ops worth issued,
  collision_free H -> history_sorted H history -> sall_succeed H ms_empty history ->
  contract_state (state_after H history) cid = Ok c ->
  enumerates H history cid ops ->
  truthful H history cid ty worth -> valid_supply H ops ty worth issued ->
  total_of (unspent ops ty (outs_all KFungible c)) <= list_sum (map issued ops).
Proof.
  intros OG Bad. set (history := sp_calls [8; 9]).
  assert (Hl : live (state_after bit_hashes history) (Some (st_w 8))).
  { exists Tentative. split; [vm_compute; reflexivity|discriminate]. }
  assert (Hok : sall_succeed bit_hashes ms_empty history).
  { split; [eexists; vm_compute; reflexivity|]. split; [eexists; vm_compute; reflexivity|].
    split; [eexists; vm_compute; reflexivity|exact Logic.I]. }
  assert (E : exists c, contract_state (state_after bit_hashes history) sp_cid = Ok c /\
  total_of (unspent sp_ops 4 (outs_all KFungible c)) = 140).
  { eexists. split; [vm_compute; reflexivity|]. vm_compute. reflexivity. }
  destruct E as (c & Ec & T).
  assert (Hn : total_of (unspent sp_ops 4 (outs_all KFungible c)) <= list_sum (map sp_issued sp_ops)).
  { apply (Bad bit_hashes history sp_cid c 4 sp_ops sp_worth sp_issued bit_collision_free (sp_sorted _) Hok Ec (sp_enum 8 [9] Hl) (sp_truth _)).
    apply sp_valid. }
  rewrite T in Hn. vm_compute in Hn. apply Hn. reflexivity.
Qed.

Print Assumptions C70_no_inflation_partial.
Print Assumptions C70_supply_partial.
Print Assumptions C70_spent_reported_refuted.
Print Assumptions C70_two_witnesses_refuted.
