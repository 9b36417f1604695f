(** * Proofs about composing payments: amounts and allocations *)
From Verif Require Import Base Core InvoiceModel SupplModel ContainerModel PIndexModel StateModel StashModel StockModel IfaceModel
  BuilderModel BuilderSpec BuilderProofs BuilderCalls BuilderComplete BuilderProps ComposeModel ComposeSpec ComposeProofs ComposeMain.
Local Open Scope N_scope.

Lemma winv_start D s ch X method layer cid a tt lookup T b : side X cid tt b T [] [] ->
  winv D s ch X method layer cid a tt lookup T {| wk_main := b; wk_alt := b; wk_sum := 0; wk_sum_alt := 0; wk_data := []; wk_data_main := true |} [].
Proof.
  intros S. constructor; cbn; try reflexivity; try (exists []; split; [exact S|constructor]). split; [discriminate|]. intros (v & _ & []).
Qed.

Lemma unblinded_assigned seal st : unblinded (assigned seal st) = assigned seal (unblind st).
Proof. destruct seal; reflexivity. Qed.
Lemma unblind_update st b : unblind (update_blinding st b) = unblind st.
Proof. destruct st; reflexivity. Qed.

Lemma mv_moved D s ch method layer cid a l O : Forall2 (mv D s ch method layer cid a) l O ->
  Forall2 (moved ch method layer use_main cid (velocity_for D s cid)) l (as_shown O).
Proof.
  induction 1 as [|x r l O (M1 & M2 & M3) F IH]; cbn; constructor; [|exact IH]. exists (snd (fst r)). split; [exact M2|].
  rewrite M1, M3, !unblinded_assigned, unblind_update. reflexivity.
Qed.
Lemma as_shown_app O O' : as_shown (O ++ O') = as_shown O ++ as_shown O'.
Proof. apply map_app. Qed.
Lemma as_shown_items a T seal v bl : as_shown (items a T seal v bl) = amount_to a (tag_of a T) seal v.
Proof. unfold items, amount_to. destruct (v =? 0); [reflexivity|]. cbn. rewrite unblinded_assigned. reflexivity. Qed.

Lemma paid_perm amt method a l l' m : Permutation l l' -> paid amt method a l m = paid amt method a l' m.
Proof. intros Hp. unfold paid. rewrite (total_perm a _ _ (with_method_perm method _ _ Hp)). reflexivity. Qed.

(** Functions of the method *)
Definition by_method {A} (f g : A) (m : CloseMethod) : A := match m with TapretFirst => f | OpretFirst => g end.
Lemma choose_method {A} (Q : CloseMethod -> A -> Prop) : (forall m, exists x, Q m x) -> exists f, forall m, Q m (f m).
Proof.
  intros Hq. destruct (Hq TapretFirst) as (f & Hf), (Hq OpretFirst) as (g & Hg). exists (by_method f g). intros []; assumption.
Qed.

Lemma separate_sub ch u cid vel l l' : separate ch u cid vel l -> (forall x, In x l' -> In x l) -> separate ch u cid vel l'.
Proof. intros S Hi x y Hx Hy. apply S; auto. Qed.

Lemma In_other_types a l x : In x (other_types a l) <-> In x l /\ in_ty x <> a.
Proof. unfold other_types. rewrite filter_In. destruct (N.eqb_spec (in_ty x) a); cbn; intuition congruence. Qed.

Section Paid.
Context (H : Hashes) (D : Defs) (P : Pedersen) (wrap : bool) (s : Stock) (ch : Choices) (od : Orders).

(** The side of a method has nothing twice *)
Lemma moved_nodup method layer cid a l lst O m : separate ch use_main cid (velocity_for D s cid) (other_types a l) -> Permutation lst l -> NoDup (map in_out l) ->
  Forall2 (mv D s ch method layer cid a) (other_types a (with_method m lst)) O -> NoDup (map fst O) /\ Forall (fun r => fst (fst r) <> a) O.
Proof.
  intros Hsep Hl ND F. eapply mv_nodup; [| | |exact F].
  - apply (separate_sub _ _ _ _ _ _ Hsep). intros x Hx. apply In_other_types in Hx as [Hx Ht]. apply In_with_method in Hx as [Hx _].
    apply In_other_types. split; [apply (Permutation_in _ Hl); exact Hx|exact Ht].
  - apply NoDup_map_filter. eapply Permutation_NoDup; [apply Permutation_map, Permutation_sym; exact Hl|exact ND].
  - exists m. intros x Hx. apply In_with_method in Hx. apply Hx.
Qed.

Lemma compose_amount inv prev method vout priority now batch cid tt a l amt :
  orders_ok od -> schemata_small D -> owned_state inv = ISAmount amt -> asks D s inv cid tt a -> spent s cid prev l -> no_wrap wrap a l ->
  separate ch use_main cid (velocity_for D s cid) (other_types a l) ->
  change_apart ch method cid a (velocity_for D s cid) (xcn_into_inner (beneficiary inv)) vout ->
  compose H D P wrap s ch od inv prev method vout priority now = Ok batch ->
  let layer := layer1 (chain_network (beneficiary inv)) in
  amt <= total a l /\ l <> [] /\ spends_all cid l (di_iter (ba_main batch)) /\
  exists ben change tag, is_beneficiary D ch layer cid a (xcn_into_inner (beneficiary inv)) vout ben /\
    payer_seal ch method layer UChange cid a (velocity_for D s cid a) change /\ ben <> change /\
    (0 < total a l -> exists g, stash_genesis (sk_stash s) cid = Ok g /\ latest (df_tags D g) a = Some tag) /\
    forall t, In t (di_iter (ba_main batch)) -> op_ty (ti_transition t) = tt /\
      exists R, Forall2 (moved ch method layer use_main cid (velocity_for D s cid)) (other_types a (with_method (ti_method t) l)) R /\
        Permutation (shown (ti_transition t))
          (R ++ amount_to a tag ben (paid amt method a l (ti_method t)) ++
           amount_to a tag change (total a (with_method (ti_method t) l) - paid amt method a l (ti_method t))).
Proof.
  intros Ho Hsz Hst Ha Hsp Hw Hsep Hap E layer.
  destruct (compose_ok _ _ _ _ _ _ _ _ _ _ _ _ _ _ E) as (iface & cid' & tt' & a' & X & b & T & ben & m & w & w' & spm & blanks & builders & first & second & K1 & K2 & (r & K3) & (g & Kg & KT) & K4 & K5 & K6 & K7 & K8 & K9 & K10 & K11 & K12 & K13 & K14 & _).
  fold layer in K5, K7, K8, K10. destruct (asks_fun _ _ _ _ _ _ _ _ _ Ha K1) as (<- & <- & <-). rewrite Hst in K7, K8. cbn [pay] in K8.
  destruct (caf_ok _ _ _ _ _ K6 Hsp) as [W Hp]. pose proof (Permutation_trans (listed_perm od cid m Ho) Hp) as Hl. destruct Hsp as [ND _].
  set (lst := listed od cid m) in *.
  assert (W0 := winv_start D s ch X method layer cid a tt None T b K4).
  assert (Hw' : no_wrap wrap a ([] ++ lst)) by (destruct Hw as [Hw|Hw]; [left; exact Hw|right; cbn [app]; rewrite (total_perm a _ _ Hl); exact Hw]).
  pose proof (spends_inv _ _ _ _ _ _ _ _ _ _ _ _ lst _ _ _ W0 Hw' K7) as W1. cbn [app] in W1.
  destruct (pay_amount_ok _ _ _ _ _ _ _ _ _ _ _ _ _ _ _ _ _ W1 K8) as (Hamt & Htag & change & bp & bc & Hch & Hside).
  destruct (choose_method _ Hside) as (Om & HOm). rewrite (total_perm a _ _ Hl) in Hamt, Htag. split; [exact Hamt|].
  set (Of := fun me => Om me ++ items a T ben (paid amt method a lst me) bp ++ items a T change (total a (with_method me lst) - paid amt method a lst me) bc).
  assert (Hne : ben <> change) by (destruct (paid_nodup D ch method layer cid a T _ ben _ vout change [] 0 0 0 0 K5 Hch Hap) as [Hne _]; [constructor|constructor|exact Hne]).
  assert (Hall : forall me, side X cid tt (sel (keqb me method) w') T (Of me) (map snd (with_method me lst)) /\ NoDup (map fst (Of me))).
  { intros me. destruct (HOm me) as [F S]. split; [exact S|]. destruct (moved_nodup _ _ _ _ _ _ _ _ Hsep Hl ND F) as [N1 N2].
    unfold Of. eapply paid_nodup; eassumption. }
  assert (Hs255 : len (fs_owned (bc_schema X)) <= 255) by (rewrite K3; apply Hsz).
  destruct (finish_mains H P od X cid tt T method m l lst w' Of builders first second priority blanks Ho Hs255 W Hp Hl ND Hall K11 K12 K13) as (F1 & F2 & F3).
  rewrite K14. split; [exact F1|]. split; [exact F2|]. exists ben, change, (tag_of a T). split; [exact K5|]. split; [exact Hch|]. split; [exact Hne|].
  split; [intros Hpos; exists g; rewrite <- KT; auto|]. intros t Ht. destruct (F3 t Ht) as [F4 F5]. split; [exact F4|]. unfold Of in F5. rewrite !as_shown_app, !as_shown_items in F5.
  rewrite (paid_perm _ _ _ _ _ _ Hl), (total_perm a _ _ (with_method_perm _ _ _ Hl)) in F5.
  destruct (HOm (ti_method t)) as [Fm _]. apply mv_moved in Fm.
  destruct (Permutation_Forall2 (other_types_perm a _ _ (with_method_perm (ti_method t) _ _ Hl)) Fm) as (R & HR & FR). exists R. split; [exact FR|].
  eapply Permutation_trans; [exact F5|]. apply Permutation_app_tail. exact HR.
Qed.

Lemma compose_data inv prev method vout priority now batch cid tt a l al :
  orders_ok od -> schemata_small D -> owned_state inv = ISData al -> asks D s inv cid tt a -> spent s cid prev l -> no_wrap wrap a l ->
  separate ch use_main cid (velocity_for D s cid) (other_types a l) ->
  compose H D P wrap s ch od inv prev method vout priority now = Ok batch ->
  let layer := layer1 (chain_network (beneficiary inv)) in
  l <> [] /\ spends_all cid l (di_iter (ba_main batch)) /\
  exists ben payer, is_beneficiary D ch layer cid a (xcn_into_inner (beneficiary inv)) vout ben /\
    In (df_alloc D al) (data_in a (with_method payer l)) /\
    forall t, In t (di_iter (ba_main batch)) -> op_ty (ti_transition t) = tt /\
      exists R, Forall2 (moved ch method layer use_main cid (velocity_for D s cid)) (other_types a (with_method (ti_method t) l)) R /\
        Permutation (shown (ti_transition t))
          (R ++ if keqb (ti_method t) payer then [(a, assigned ben (RData (df_alloc D al) (ch_seal ch USalt cid a)))] else []).
Proof.
  intros Ho Hsz Hst Ha Hsp Hw Hsep E layer.
  destruct (compose_ok _ _ _ _ _ _ _ _ _ _ _ _ _ _ E) as (iface & cid' & tt' & a' & X & b & T & ben & m & w & w' & spm & blanks & builders & first & second & K1 & K2 & (r & K3) & (g & Kg & KT) & K4 & K5 & K6 & K7 & K8 & K9 & K10 & K11 & K12 & K13 & K14 & _).
  fold layer in K5, K7, K8, K10. destruct (asks_fun _ _ _ _ _ _ _ _ _ Ha K1) as (<- & <- & <-). rewrite Hst in K7, K8. cbn [pay] in K8.
  destruct (caf_ok _ _ _ _ _ K6 Hsp) as [W Hp]. pose proof (Permutation_trans (listed_perm od cid m Ho) Hp) as Hl. destruct Hsp as [ND _].
  set (lst := listed od cid m) in *. set (v := df_alloc D al) in *.
  assert (W0 := winv_start D s ch X method layer cid a tt (Some v) T b K4).
  assert (Hw' : no_wrap wrap a ([] ++ lst)) by (destruct Hw as [Hw|Hw]; [left; exact Hw|right; cbn [app]; rewrite (total_perm a _ _ Hl); exact Hw]).
  pose proof (spends_inv _ _ _ _ _ _ _ _ _ _ _ _ lst _ _ _ W0 Hw' K7) as W1. cbn [app] in W1.
  destruct W1 as [(Om & Sm & Fm) (Oa & Sa & Fa) _ _ Hd Hdm]. unfold pay_data in K8. rewrite Hd in K8. destruct (existsb (N.eqb v) (data_in a lst)) eqn:Ev; [|discriminate].
  assert (Hv : In v (data_in a lst)) by (apply existsb_exists in Ev as (v' & Hv & Ee); apply N.eqb_eq in Ee; subst v'; exact Hv).
  assert (Hsplit : In v (data_in a (with_method method lst)) \/ In v (data_in a (with_method (other method) lst))).
  { unfold data_in in *. apply in_flat_map in Hv as (x & Hx & Hv). destruct (os_method (in_seal x)) eqn:Em, method eqn:Eme; cbn [other];
      first [left; apply in_flat_map; exists x; split; [apply In_with_method; split; assumption|exact Hv]
            |right; apply in_flat_map; exists x; split; [apply In_with_method; split; assumption|exact Hv]]. }
  set (payer := if wk_data_main w then method else other method).
  assert (Hpay : In v (data_in a (with_method payer lst))).
  { unfold payer. destruct (wk_data_main w) eqn:Eq.
    - destruct Hsplit as [Hs|Hs]; [exact Hs|]. assert (true = false) by (apply Hdm; exists v; auto). discriminate.
    - destruct (proj1 Hdm eq_refl) as (v' & Ee & Hi). apply Some_inj in Ee. subst v'. exact Hi. }
  apply wk_call_ok in K8 as (b2 & E2 & Ew').
  set (it := (a, ben, RData v (ch_seal ch USalt cid a)) : N * BSeal * RState).
  set (Of := fun me => (if keqb me method then Om else Oa) ++ if keqb me payer then [it] else []).
  assert (Ko : keqb (other method) method = false) by (destruct method; reflexivity).
  assert (Ko' : keqb method (other method) = false) by (destruct method; reflexivity).
  assert (Hall : forall me, side X cid tt (sel (keqb me method) w') T (Of me) (map snd (with_method me lst)) /\ NoDup (map fst (Of me))).
  { intros me. unfold Of. assert (Hm : me = method \/ me = other method) by (destruct me, method; cbn; auto).
    assert (Hnd : forall O O', NoDup (map fst O) -> Forall (fun r : N * BSeal * RState => fst (fst r) <> a) O -> O' = [] \/ O' = [it] -> NoDup (map fst (O ++ O'))).
    { intros O O' N1 N2 [->| ->]; [rewrite app_nil_r; exact N1|]. rewrite map_app. apply NoDup_app_intro; [exact N1|constructor; [intros []|constructor]|].
      intros k Hk [<-|[]]. apply in_map_iff in Hk as (q & Eq & Hq). rewrite Forall_forall in N2. apply (N2 q Hq). rewrite Eq. reflexivity. }
    destruct Hm as [->| ->].
    - rewrite keqb_refl. destruct (moved_nodup _ _ _ _ _ _ _ _ Hsep Hl ND Fm) as [N1 N2]. split; [|apply Hnd; try assumption; match goal with |- context [if keqb ?x payer then _ else _] => destruct (keqb x payer) end; auto].
      rewrite Ew'. unfold payer. destruct (wk_data_main w); cbn [sel wk_main].
      + rewrite keqb_refl. exact (side_data _ _ _ _ _ _ _ _ _ _ _ _ Sm E2).
      + rewrite Ko', app_nil_r. exact Sm.
    - rewrite Ko. destruct (moved_nodup _ _ _ _ _ _ _ _ Hsep Hl ND Fa) as [N1 N2]. split; [|apply Hnd; try assumption; match goal with |- context [if keqb ?x payer then _ else _] => destruct (keqb x payer) end; auto].
      rewrite Ew'. unfold payer. destruct (wk_data_main w); cbn [sel wk_alt].
      + rewrite Ko, app_nil_r. exact Sa.
      + rewrite keqb_refl. exact (side_data _ _ _ _ _ _ _ _ _ _ _ _ Sa E2). }
  assert (Hs255 : len (fs_owned (bc_schema X)) <= 255) by (rewrite K3; apply Hsz).
  destruct (finish_mains H P od X cid tt T method m l lst w' Of builders first second priority blanks Ho Hs255 W Hp Hl ND Hall K11 K12 K13) as (F1 & F2 & F3).
  rewrite K14. split; [exact F1|]. split; [exact F2|]. exists ben, payer. split; [exact K5|]. split.
  { unfold data_in in *. apply in_flat_map in Hpay as (x & Hx & Hv'). apply in_flat_map. exists x. split; [|exact Hv']. apply (Permutation_in _ (with_method_perm payer _ _ Hl)). exact Hx. }
  intros t Ht. destruct (F3 t Ht) as [F4 F5]. split; [exact F4|]. unfold Of in F5. rewrite as_shown_app in F5.
  assert (Fme : Forall2 (mv D s ch method layer cid a) (other_types a (with_method (ti_method t) lst)) (if keqb (ti_method t) method then Om else Oa)).
  { destruct (keqb_spec (ti_method t) method) as [->|Ne]; [exact Fm|]. assert (ti_method t = other method) as -> by (destruct (ti_method t), method; cbn; congruence). exact Fa. }
  apply mv_moved in Fme.
  destruct (Permutation_Forall2 (other_types_perm a _ _ (with_method_perm (ti_method t) _ _ Hl)) Fme) as (R & HR & FR). exists R. split; [exact FR|].
  eapply Permutation_trans; [exact F5|]. apply Permutation_app; [exact HR|]. destruct (keqb (ti_method t) payer); [|constructor]. unfold it. cbn.
  rewrite unblinded_assigned. cbn. apply Permutation_refl.
Qed.
End Paid.
