(** * The order of what is put into a builder *)
From Verif Require Import Base Core IfaceModel BuilderModel BuilderSpec BuilderProofs BuilderCalls BuilderComplete DetSpec DetProofs.
Local Open Scope N_scope.

(** ** Counting *)
Lemma distinct_ext {K} `{OrdKey K} (a b : list K) : (forall k, In k a <-> In k b) -> distinct a = distinct b.
Proof.
  intros Hs. unfold distinct at 1. apply len_distinct; [apply NoDup_nodup|]. intros k. rewrite nodup_In. apply Hs.
Qed.
Lemma distinct_nodup {K} `{OrdKey K} (a : list K) : NoDup a -> distinct a = len a.
Proof. intros N. unfold distinct. rewrite nodup_fixed_point by exact N. reflexivity. Qed.
Lemma len_snoc {A} (l : list A) x : len (l ++ [x]) = len l + 1.
Proof. unfold len. rewrite app_length. cbn. lia. Qed.
Lemma distinct_in {K} `{OrdKey K} (a : list K) k : In k a -> distinct (a ++ [k]) = distinct a.
Proof. intros Hi. apply distinct_ext. intros k'. rewrite in_app_iff. cbn. intuition congruence. Qed.
Lemma distinct_new {K} `{OrdKey K} (a : list K) k : ~ In k a -> distinct (a ++ [k]) = distinct a + 1.
Proof.
  intros Hn. rewrite (distinct_ext (a ++ [k]) (nodup key_dec a ++ [k])).
  - rewrite distinct_nodup; [rewrite len_snoc; reflexivity|]. apply NoDup_app_intro; [apply NoDup_nodup|repeat constructor; intros []|].
    intros x Hx [<-|[]]. apply Hn. apply nodup_In in Hx. exact Hx.
  - intros x. rewrite !in_app_iff, nodup_In. reflexivity.
Qed.
Lemma distinct_snoc {K} `{OrdKey K} (a : list K) k : distinct (a ++ [k]) = distinct a \/ (~ In k a /\ distinct (a ++ [k]) = distinct a + 1).
Proof. destruct (in_dec key_dec k a); [left; apply distinct_in; assumption|right; split; [assumption|apply distinct_new; assumption]]. Qed.
Lemma distinct_le {K} `{OrdKey K} (a : list K) k : distinct a <= distinct (a ++ [k]).
Proof. destruct (distinct_snoc a k) as [->|[_ ->]]; lia. Qed.

(** ** Items which composing puts *)
Definition movable (i : Item) : Prop := match i with ItIn _ _ | ItOwn _ _ _ => True | _ => False end.

Lemma ins_app' l l' : ins (l ++ l') = ins l ++ ins l'.
Proof. apply filter_map_app. Qed.
Lemma owned_app' l l' : owned (l ++ l') = owned l ++ owned l'.
Proof. apply filter_map_app. Qed.
Lemma tags_app' l l' : tags (l ++ l') = tags l ++ tags l'.
Proof. apply filter_map_app. Qed.
Lemma movable_tags new : Forall movable new -> tags new = [].
Proof. induction 1 as [|i new Hi _ IH]; [reflexivity|]. destruct i; try contradiction; exact IH. Qed.

Lemma types_app k l l' : types_of k (l ++ l') = types_of k l ++ types_of k l'.
Proof. unfold types_of. rewrite of_kind_app, map_app. reflexivity. Qed.
Lemma seals_app k ty l l' : seals_of k ty (l ++ l') = seals_of k ty l ++ seals_of k ty l'.
Proof. unfold seals_of. rewrite of_kind_app, filter_map_app. reflexivity. Qed.
Lemma types_one k ty s st : types_of k [(ty, s, st)] = if kind_eqb (kind_of st) k then [ty] else [].
Proof. unfold types_of, of_kind. cbn. destruct (kind_eqb (kind_of st) k); reflexivity. Qed.
Lemma seals_one k ty t s st : seals_of k ty [(t, s, st)] = if kind_eqb (kind_of st) k && (t =? ty) then [s] else [].
Proof. unfold seals_of, of_kind. cbn. destruct (kind_eqb (kind_of st) k); cbn; [|reflexivity]. destruct (t =? ty); reflexivity. Qed.
Lemma in_seals k ty s l : In s (seals_of k ty l) -> In (ty, s) (map fst l).
Proof.
  unfold seals_of. intros Hi. apply filter_map_In' in Hi as ([[t s'] st] & Hx & E). cbn in E. destruct (t =? ty) eqn:Et; [|discriminate].
  injection E as ->. apply N.eqb_eq in Et. subst t. apply filter_In in Hx as [Hx _]. apply (in_map fst) in Hx. exact Hx.
Qed.
Lemma seals_types k ty s l : In s (seals_of k ty l) -> In ty (types_of k l).
Proof.
  unfold seals_of, types_of. intros Hi. apply filter_map_In' in Hi as ([[t s'] st] & Hx & E). cbn in E. destruct (t =? ty) eqn:Et; [|discriminate].
  apply N.eqb_eq in Et. subst t. apply in_map_iff. exists (ty, s', st). auto.
Qed.
Lemma no_type_no_seals k ty l : ~ In ty (types_of k l) -> seals_of k ty l = [].
Proof. intros Hn. destruct (seals_of k ty l) as [|s r] eqn:E; [reflexivity|]. destruct Hn. apply (seals_types k ty s). rewrite E. left. reflexivity. Qed.

(** Whether an item may be put depends only on what is there, not on its order. *)
Lemma allowed_perm X l l' i : movable i -> Permutation l l' -> tags l = tags l' -> allowed X l i -> allowed X l' i.
Proof.
  intros Hm Hp Ht. destruct i as [| | |ty s st|o st| | |]; try contradiction; cbn.
  - intros (A & B & C & D). split; [exact A|]. split; [rewrite <- Ht; exact B|].
    pose proof (filter_map_perm (fun i => match i with ItOwn ty s st => Some (ty, s, st) | _ => None end) _ _ Hp) as Po. fold (owned l) in Po. fold (owned l') in Po.
    pose proof (filter_perm (fun p : N * BSeal * RState => kind_eqb (kind_of (snd p)) (kind_of st)) _ _ Po) as Pk.
    pose proof (Permutation_map (fun p : N * BSeal * RState => fst (fst p)) Pk) as Pt.
    pose proof (filter_map_perm (fun p : N * BSeal * RState => if fst (fst p) =? ty then Some (snd (fst p)) else None) _ _ Pk) as Ps.
    fold (of_kind (kind_of st) (owned l)) in Pt, Ps. fold (of_kind (kind_of st) (owned l')) in Pt, Ps.
    fold (types_of (kind_of st) (owned l)) in Pt. fold (types_of (kind_of st) (owned l')) in Pt.
    fold (seals_of (kind_of st) ty (owned l)) in Ps. fold (seals_of (kind_of st) ty (owned l')) in Ps.
    rewrite <- (distinct_ext (seals_of (kind_of st) ty (owned l)) (seals_of (kind_of st) ty (owned l'))) by (intros k; split; apply Permutation_in; [exact Ps|symmetry; exact Ps]).
    rewrite <- (distinct_ext (types_of (kind_of st) (owned l)) (types_of (kind_of st) (owned l'))) by (intros k; split; apply Permutation_in; [exact Pt|symmetry; exact Pt]).
    split; [intros Hi; apply C|intros Hi; apply D; intros Hn; apply Hi]; [apply (Permutation_in _ (Permutation_sym Pt)); exact Hi|apply (Permutation_in _ Pt); exact Hn].
  - intros A. pose proof (Permutation_map fst (filter_map_perm (fun i => match i with ItIn o st => Some (o, st) | _ => None end) _ _ Hp)) as Pi.
    fold (ins l) in Pi. fold (ins l') in Pi. rewrite <- (distinct_ext (map fst (ins l)) (map fst (ins l'))); [exact A|].
    intros k; split; apply Permutation_in; [exact Pi|symmetry; exact Pi].
Qed.
Lemma allowed_all_perm_base X new : Forall movable new -> forall l l', Permutation l l' -> tags l = tags l' -> allowed_all X l new -> allowed_all X l' new.
Proof.
  induction 1 as [|i new Hm _ IH]; intros l l' Hp Ht Ha; [exact Logic.I|]. destruct Ha as [Ha Hb]. split; [exact (allowed_perm X l l' i Hm Hp Ht Ha)|].
  apply (IH (l ++ [i])); [apply Permutation_app_tail; exact Hp|rewrite !tags_app', Ht; reflexivity|exact Hb].
Qed.

(** Nothing is put twice *)
Definition once (l : list Item) : Prop := NoDup (map fst (ins l)) /\ NoDup (map fst (owned l)).
Lemma once_perm l l' : Permutation l l' -> once l -> once l'.
Proof.
  intros Hp [A B]. split; [eapply Permutation_NoDup; [apply Permutation_map, filter_map_perm; exact Hp|exact A]
                          |eapply Permutation_NoDup; [apply Permutation_map, filter_map_perm; exact Hp|exact B]].
Qed.
Lemma NoDup_app_l {A} (l l' : list A) : NoDup (l ++ l') -> NoDup l.
Proof. induction l as [|x l IH]; [constructor|]. cbn. intros N. apply NoDup_cons_iff in N as [Hn N]. constructor; [intros Hi; apply Hn, in_app_iff; auto|exact (IH N)]. Qed.
Lemma once_app l l' : once (l ++ l') -> once l.
Proof. intros [A B]. rewrite ins_app', map_app in A. rewrite owned_app', map_app in B. split; eapply NoDup_app_l; eassumption. Qed.

Lemma kind_eqb_true a b : kind_eqb a b = true -> a = b.
Proof. apply kind_eqb_eq. Qed.

Lemma allowed_swap X l i j : movable i -> movable j -> once (l ++ [j; i]) -> allowed X l j -> allowed X (l ++ [j]) i ->
  allowed X l i /\ allowed X (l ++ [i]) j.
Proof.
  intros Hi Hj [Oi Oo] Aj Ai. rewrite ins_app' in Oi. rewrite owned_app' in Oo.
  destruct i as [| | |ti si sti|oi sti| | |]; try contradiction; destruct j as [| | |tj sj stj|oj stj| | |]; try contradiction; cbn in *.
  - (* state and state *)
    rewrite !owned_app', !tags_app' in *. cbn [owned tags filter_map] in *. rewrite !app_nil_r in *.
    destruct Aj as (A1 & A2 & A3 & A4). destruct Ai as (B1 & B2 & B3 & B4).
    rewrite !types_app, !seals_app, !types_one, !seals_one in *. rewrite map_app in Oo. cbn in Oo.
    assert (Hni : ~ In (ti, si) (map fst (owned l)) /\ ~ In (tj, sj) (map fst (owned l)) /\ (ti, si) <> (tj, sj)).
    { apply NoDup_remove in Oo as [N1 N2]. rewrite in_app_iff in N2. cbn in N2.
      split; [|split; [tauto|intros E; apply N2; right; left; exact E]].
      apply NoDup_remove in N1 as [_ N3]. rewrite app_nil_r in N3. exact N3. }
    destruct Hni as (Hfi & Hfj & Hij).
    assert (Hsi : forall k, ~ In si (seals_of k ti (owned l))) by (intros k Hs; apply Hfi; eapply in_seals; exact Hs).
    assert (Hsj : forall k, ~ In sj (seals_of k tj (owned l))) by (intros k Hs; apply Hfj; eapply in_seals; exact Hs).
    destruct (kind_eqb (kind_of stj) (kind_of sti)) eqn:Ek.
    + apply kind_eqb_true in Ek. rewrite Ek in *. cbn [andb] in *. rewrite kind_eqb_refl in *. cbn [andb] in *.
      destruct (N.eqb_spec tj ti) as [E|E].
      * subst tj. rewrite N.eqb_refl in *. split.
        -- split; [exact B1|]. split; [exact B2|]. split; [exact A3|exact A4].
        -- split; [exact A1|]. split; [exact A2|].
           split; [|intros Hn; destruct Hn; apply in_app_iff; right; left; reflexivity].
           intros _. destruct (in_dec N.eq_dec ti (types_of (kind_of sti) (owned l))) as [Hin|Hin].
           ++ rewrite distinct_new by apply Hsi. rewrite distinct_new in B3 by apply Hsj. apply B3. apply in_app_iff. auto.
           ++ rewrite (no_type_no_seals _ _ _ Hin). cbn [app]. rewrite distinct_nodup by (repeat constructor; intros []). reflexivity.
      * rewrite (proj2 (N.eqb_neq ti tj)) by congruence. rewrite !app_nil_r in *. split.
        -- split; [exact B1|]. split; [exact B2|]. split.
           ++ intros Hin. apply B3. apply in_app_iff. auto.
           ++ intros Hn. pose proof (distinct_le (types_of (kind_of sti) (owned l)) tj). assert (distinct (types_of (kind_of sti) (owned l) ++ [tj]) < 255); [|lia].
              apply B4. rewrite in_app_iff. cbn. intuition congruence.
        -- split; [exact A1|]. split; [exact A2|]. split.
           ++ intros Hin. apply A3. apply in_app_iff in Hin as [Hin|[Hin|[]]]; [exact Hin|congruence].
           ++ intros Hn. rewrite in_app_iff in Hn. destruct (in_dec N.eq_dec ti (types_of (kind_of sti) (owned l))) as [Hin|Hin].
              ** rewrite distinct_in by exact Hin. apply A4. tauto.
              ** rewrite distinct_new by exact Hin. rewrite distinct_new in B4 by tauto. apply B4. rewrite in_app_iff. cbn. intuition congruence.
    + assert (Ek' : kind_eqb (kind_of sti) (kind_of stj) = false).
      { destruct (kind_eqb (kind_of sti) (kind_of stj)) eqn:E; [|reflexivity]. apply kind_eqb_true in E. rewrite E, kind_eqb_refl in Ek. discriminate. }
      rewrite Ek'. cbn [andb] in *. rewrite !app_nil_r in *. auto.
  - (* state and an input *)
    rewrite !owned_app', !tags_app', !ins_app' in *. cbn [owned tags ins filter_map] in *. rewrite !app_nil_r in *. split; [exact Ai|exact Aj].
  - rewrite !owned_app', !tags_app', !ins_app' in *. cbn [owned tags ins filter_map] in *. rewrite !app_nil_r in *. split; [exact Ai|exact Aj].
  - (* two inputs *)
    rewrite !ins_app', !map_app in *. cbn in *.
    assert (Hn : ~ In oi (map fst (ins l)) /\ ~ In oj (map fst (ins l))).
    { apply NoDup_remove in Oi as [N1 N2]. rewrite in_app_iff in N2. cbn in N2. split; [|tauto].
      apply NoDup_remove in N1 as [_ N3]. rewrite app_nil_r in N3. exact N3. }
    destruct Hn as [Ni Nj]. rewrite distinct_new in Ai by exact Nj. split; [lia|]. rewrite distinct_new by exact Ni. exact Ai.
Qed.

Lemma allowed_all_perm X new new' : Permutation new new' -> Forall movable new -> forall l, once (l ++ new) -> allowed_all X l new -> allowed_all X l new'.
Proof.
  induction 1 as [|i new new' Hp IH|i j new|new new1 new2 P1 IH1 P2 IH2]; intros Hm l Ho Ha.
  - exact Logic.I.
  - destruct Ha as [Ha Hb]. inversion Hm; subst. split; [exact Ha|]. apply IH; [assumption|rewrite <- app_assoc; exact Ho|exact Hb].
  - destruct Ha as (Hj & Hi & Hr). inversion Hm as [|? ? Mj Hm']; subst. inversion Hm' as [|? ? Mi Mr]; subst.
    assert (Ho2 : once (l ++ [j; i])) by (apply (once_app _ new); rewrite <- app_assoc; exact Ho).
    destruct (allowed_swap X l i j Mi Mj Ho2 Hj Hi) as [Ki Kj]. split; [exact Ki|]. split; [exact Kj|].
    eapply allowed_all_perm_base; [exact Mr| | |exact Hr].
    + rewrite <- !app_assoc. apply Permutation_app_head. cbn. apply perm_swap.
    + rewrite !tags_app'. destruct i, j; try contradiction; reflexivity.
  - apply IH2; [|eapply once_perm; [|exact Ho]; apply Permutation_app_head; exact P1|apply IH1; assumption].
    eapply Permutation_Forall; eassumption.
Qed.

(** ** Putting items *)
Definition call_of (i : Item) : TCall :=
  match i with ItIn o st => TInput o st | ItOwn ty s st => TOwnedRaw ty s st | _ => TSetNonce 0 end.
Fixpoint t_run (X : BuildCtx) (b : TrBuilder) (cs : list TCall) : result BuilderError TrBuilder :=
  match cs with [] => Ok b | c :: cs' => let! b' := t_call X b c in t_run X b' cs' end.
Lemma asks_call X tt l i : movable i -> t_asks X tt l (call_of i) i.
Proof. destruct i; try contradiction; intros _; constructor. Qed.

Lemma put_ok X cid tt new : Forall movable new -> forall b l b', t_built X cid tt b l -> t_run X b (map call_of new) = Ok b' ->
  allowed_all X l new /\ t_built X cid tt b' (l ++ new).
Proof.
  induction 1 as [|i new Hm _ IH]; intros b l b' B E; [injection E as <-; rewrite app_nil_r; split; [exact Logic.I|exact B]|].
  cbn in E. apply rbind_ok in E as (b1 & E1 & E). destruct (t_step X cid tt b l _ b1 (t_built_repr _ _ _ _ _ B) E1) as (i' & Hi & Ha & _).
  rewrite (t_asks_fun X tt l _ _ _ Hi (asks_call X tt l i Hm)) in *.
  pose proof (t_built_call X cid tt b l _ b1 i B E1 (asks_call X tt l i Hm)) as B1.
  destruct (IH b1 (l ++ [i]) b' B1 E) as [Hr B']. rewrite <- app_assoc in B'. split; [split; assumption|exact B'].
Qed.
Lemma put_can X cid tt new : Forall movable new -> forall b l, t_built X cid tt b l -> allowed_all X l new ->
  exists b', t_run X b (map call_of new) = Ok b'.
Proof.
  induction 1 as [|i new Hm _ IH]; intros b l B Ha; [exists b; reflexivity|]. destruct Ha as [Ha Hr].
  destruct (t_can X cid tt b l (call_of i) i (t_built_repr _ _ _ _ _ B) (asks_call X tt l i Hm) Ha) as (b1 & E1).
  pose proof (t_built_call X cid tt b l _ b1 i B E1 (asks_call X tt l i Hm)) as B1.
  destruct (IH b1 (l ++ [i]) B1 Hr) as (b' & E). exists b'. cbn. rewrite E1. exact E.
Qed.

(** ** A builder is what was put into it *)
Lemma built_eq X cid tt b b' l l' : t_built X cid tt b l -> t_built X cid tt b' l' -> same_content l l' ->
  (forall ty, latest (tags l) ty = latest (tags l') ty) -> (forall ty, latest (metas l) ty = latest (metas l') ty) -> b = b'.
Proof.
  intros B B' S T M. pose proof (t_built_repr _ _ _ _ _ B) as R. pose proof (t_built_repr _ _ _ _ _ B') as R'.
  assert (Ei : tb_inputs b = tb_inputs b').
  { destruct (rt_inputs _ _ _ _ _ R) as [Si Gi]. destruct (rt_inputs _ _ _ _ _ R') as [Si' Gi'].
    apply msorted_ext; [exact Si|exact Si'|]. intros o. rewrite Gi, Gi'. apply (sc_ins _ _ S). }
  assert (Eb : tb_builder b = tb_builder b').
  { pose proof (rt_op _ _ _ _ _ R) as Q. pose proof (rt_op _ _ _ _ _ R') as Q'.
    pose proof (fungible_same X _ _ l l' Q Q' (sc_owned _ _ S)) as E1. pose proof (data_same X _ _ l l' Q Q' (sc_owned _ _ S)) as E2.
    pose proof (rights_same X _ _ l l' Q Q' (sc_owned _ _ S)) as E3. pose proof (attach_same X _ _ l l' Q Q' (sc_owned _ _ S)) as E4.
    pose proof (global_same X _ _ l l' Q Q' (sc_globals _ _ S)) as E5. pose proof (tags_same X _ _ l l' Q Q' T) as E6.
    assert (E7 : ob_meta (tb_builder b) = ob_meta (tb_builder b')).
    { destruct (rp_meta _ _ _ Q) as [Hs Hg]. destruct (rp_meta _ _ _ Q') as [Hs' Hg']. apply msorted_ext; [exact Hs|exact Hs'|]. intros ty. rewrite Hg, Hg'. apply M. }
    destruct (tb_builder b), (tb_builder b'). cbn in *. congruence. }
  pose proof (rt_contract _ _ _ _ _ R). pose proof (rt_contract _ _ _ _ _ R'). pose proof (rt_type _ _ _ _ _ R). pose proof (rt_type _ _ _ _ _ R').
  pose proof (rt_nonce _ _ _ _ _ R). pose proof (rt_nonce _ _ _ _ _ R'). pose proof (sc_nonce _ _ S). destruct b, b'. cbn in *. congruence.
Qed.

Lemma movable_globals new : Forall movable new -> globals new = [] /\ metas new = [].
Proof. induction 1 as [|i new Hi _ [IH IH']]; [auto|]. destruct i; try contradiction; cbn; auto. Qed.
Lemma movable_nonce new : Forall movable new -> forall n, fold_left (fun n i => match i with ItNonce m => m | _ => n end) new n = n.
Proof. induction 1 as [|i new Hi _ IH]; intros n; [reflexivity|]. destruct i; try contradiction; cbn; apply IH. Qed.

(** The same items in another order make the same builder. *)
Lemma put_perm X cid tt b l new new' : Permutation new new' -> Forall movable new -> once (l ++ new) -> t_built X cid tt b l ->
  match t_run X b (map call_of new), t_run X b (map call_of new') with
  | Ok b1, Ok b2 => b1 = b2 /\ t_built X cid tt b1 (l ++ new)
  | Ok _, _ | _, Ok _ => False
  | _, _ => True
  end.
Proof.
  intros Hp Hm Ho B. assert (Hm' : Forall movable new') by (eapply Permutation_Forall; eassumption).
  assert (Ho' : once (l ++ new')) by (eapply once_perm; [apply Permutation_app_head; exact Hp|exact Ho]).
  assert (Hno : forall q q', Permutation q q' -> Forall movable q -> Forall movable q' -> once (l ++ q) ->
            forall b1, t_run X b (map call_of q) = Ok b1 -> exists b2, t_run X b (map call_of q') = Ok b2).
  { intros q q' Q Mq Mq' Oq b1 E1. destruct (put_ok X cid tt q Mq b l b1 B E1) as [Ha _].
    apply (put_can X cid tt q' Mq' b l B). eapply allowed_all_perm; eassumption. }
  destruct (t_run X b (map call_of new)) as [b1|e|] eqn:E1.
  - destruct (Hno new new' Hp Hm Hm' Ho b1 E1) as (b2 & E2). rewrite E2.
    destruct (put_ok X cid tt new Hm b l b1 B E1) as [_ B1]. destruct (put_ok X cid tt new' Hm' b l b2 B E2) as [_ B2]. split; [|exact B1].
    destruct (movable_globals _ Hm) as [G1 M1]. destruct (movable_globals _ Hm') as [G2 M2].
    assert (Eg : globals (l ++ new) = globals (l ++ new')) by (unfold globals in *; rewrite !filter_map_app, G1, G2; reflexivity).
    assert (Em : metas (l ++ new) = metas (l ++ new')) by (unfold metas in *; rewrite !filter_map_app, M1, M2; reflexivity).
    assert (Et : tags (l ++ new) = tags (l ++ new')) by (rewrite !tags_app', (movable_tags new Hm), (movable_tags new' Hm'); reflexivity).
    eapply built_eq; [exact B1|exact B2| |intros; rewrite Et; reflexivity|intros; rewrite Em; reflexivity].
    constructor.
    + intros. rewrite Eg. reflexivity.
    + intros k. apply latest_perm; [apply Ho|apply filter_map_perm, Permutation_app_head; exact Hp].
    + intros k. apply latest_perm; [apply Ho|apply filter_map_perm, Permutation_app_head; exact Hp].
    + unfold nonce_of. rewrite !fold_left_app, (movable_nonce new Hm), (movable_nonce new' Hm'). reflexivity.
  - destruct (t_run X b (map call_of new')) as [b2| |] eqn:E2; try exact Logic.I.
    destruct (Hno new' new (Permutation_sym Hp) Hm' Hm Ho' b2 E2) as (b3 & E3). congruence.
  - destruct (t_run X b (map call_of new')) as [b2| |] eqn:E2; try exact Logic.I.
    destruct (Hno new' new (Permutation_sym Hp) Hm' Hm Ho' b2 E2) as (b3 & E3). congruence.
Qed.
