(** * Proofs about composing payments: the state of other contracts *)
From Verif Require Import Base Core InvoiceModel SupplModel ContainerModel PIndexModel StateModel StashModel StockModel IfaceModel
  BuilderModel BuilderSpec BuilderProofs BuilderCalls BuilderComplete BuilderProps ComposeModel ComposeSpec ComposeProofs ComposeMain ComposePaid.
Local Open Scope N_scope.

(** ** Merging what is spent *)
Lemma insert_all_get {K V} `{OrdKey K} (l : omap K V) : msorted l -> forall (m : omap K V) k,
  mget k (fold_left (fun l q => minsert (fst q) (snd q) l) l m) = match mget k l with Some v => Some v | None => mget k m end.
Proof.
  induction l as [|[k' v] l IH]; intros S m k; [reflexivity|]. cbn [fold_left fst snd]. pose proof (msorted_NoDup _ S) as ND.
  change (mkeys ((k', v) :: l)) with (k' :: mkeys l) in ND. apply NoDup_cons_iff in ND as [Hn _].
  rewrite IH by (apply msorted_inv in S; apply S). cbn [mget]. rewrite mget_insert. destruct (keqb_spec k k') as [->|N].
  - rewrite (proj2 (mget_None_notin _ _) Hn). reflexivity.
  - reflexivity.
Qed.
Lemma insert_all_sorted {K V} `{OrdKey K} (l m : omap K V) : msorted m -> msorted (fold_left (fun l q => minsert (fst q) (snd q) l) l m).
Proof. revert m. induction l as [|p l IH]; intros m S; [exact S|]. cbn. apply IH. apply minsert_sorted. exact S. Qed.
Lemma insert_all_id {K V} `{OrdKey K} (l m : omap K V) : msorted l -> m = [] \/ m = l -> fold_left (fun l q => minsert (fst q) (snd q) l) l m = l.
Proof.
  intros S Hm. apply msorted_ext; [apply insert_all_sorted; destruct Hm as [->| ->]; [apply msorted_nil|exact S]|exact S|].
  intros k. rewrite insert_all_get by exact S. destruct Hm as [->| ->]; destruct (mget k l); reflexivity.
Qed.

Lemma merge_step (l m : Spending) : NoDup (mkeys l) ->
  (forall seal lm, In (seal, lm) l -> msorted lm /\ (mget seal m = None \/ mget seal m = Some lm)) ->
  merge_spending m l = fold_left (fun l q => minsert (fst q) (snd q) l) l m.
Proof.
  unfold merge_spending. revert m. induction l as [|[seal lm] l IH]; intros m ND Hl; [reflexivity|]. cbn [fold_left fst snd].
  change (mkeys ((seal, lm) :: l)) with (seal :: mkeys l) in ND. apply NoDup_cons_iff in ND as [Hn ND].
  destruct (Hl seal lm (or_introl eq_refl)) as [S Hm].
  rewrite (insert_all_id lm) by (try exact S; destruct Hm as [->| ->]; auto). apply IH; [exact ND|].
  intros seal' lm' Hi. destruct (Hl seal' lm' (or_intror Hi)) as [S' Hm']. split; [exact S'|]. rewrite mget_insert_ne; [exact Hm'|].
  intros <-. apply Hn. change (In (fst (seal, lm')) (map fst l)). apply in_map. exact Hi.
Qed.
Lemma merge_id m m' : wfs m -> m' = [] \/ m' = m -> merge_spending m' m = m.
Proof.
  intros [S W] Hm. rewrite merge_step.
  - apply insert_all_id; assumption.
  - apply msorted_NoDup. exact S.
  - intros seal lm Hi. apply (In_mget _ _ _ S) in Hi. split; [apply (W _ _ Hi)|]. destruct Hm as [->| ->]; [left; reflexivity|right; exact Hi].
Qed.

Lemma caf_wfs s cid outs m : contract_assignments_for s cid outs = Ok m -> wfs m.
Proof.
  intros E. unfold contract_assignments_for in E. apply rbind_ok in E as (c & _ & E). injection E as <-.
  change (fun m a => if existsb (keqb (os_outpoint (oa_seal a))) outs then put_spending m a else m) with (put_if outs).
  apply put_all. split; [constructor|discriminate].
Qed.

Section Blank.
Context (H : Hashes) (D : Defs) (P : Pedersen) (s : Stock) (ch : Choices) (od : Orders).

Lemma spent_state_ok cid outs spm : spent_state s cid outs = Ok spm ->
  msorted spm /\ forall id, In id (mkeys spm) <-> In id (contracts_assigning (sk_index s) (sfrom outs)) /\ id <> cid.
Proof.
  intros E. unfold spent_state in E.
  assert (Gen : forall ids acc spm, msorted acc ->
    rfold (fun acc id => if id =? cid then Ok acc else let! m := contract_assignments_for (sk_state s) id outs in
             Ok (minsert id (merge_spending match mget id acc with Some m' => m' | None => [] end m) acc)) acc ids = Ok spm ->
    msorted spm /\ forall id, In id (mkeys spm) <-> In id (mkeys acc) \/ In id ids /\ id <> cid).
  { clear. induction ids as [|id ids IH]; intros acc spm S E; cbn [rfold] in E.
    { injection E as <-. split; [exact S|]. cbn. tauto. }
    apply rbind_ok in E as (acc1 & E1 & E). destruct (N.eqb_spec id cid) as [->|Ne].
    - injection E1 as <-. destruct (IH _ _ S E) as [S' Hk]. split; [exact S'|]. intros id. rewrite Hk. cbn. intuition congruence.
    - apply rbind_ok in E1 as (m & Em & E1). injection E1 as <-. destruct (IH _ _ (minsert_sorted _ _ _ S) E) as [S' Hk]. split; [exact S'|].
      intros id'. rewrite Hk. assert (Hi : In id' (mkeys (minsert id (merge_spending match mget id acc with Some m' => m' | None => [] end m) acc)) <-> id' = id \/ In id' (mkeys acc)).
      { rewrite !mget_Some_in. split.
        - intros (v & G). rewrite mget_insert in G. destruct (keqb_spec id' id) as [->|N]; [left; reflexivity|right; eauto].
        - intros [->|(v & G)]; [eexists; apply mget_insert_eq|]. destruct (keqb_spec id' id) as [->|N]; [eexists; apply mget_insert_eq|].
          exists v. rewrite mget_insert_ne; auto. }
      rewrite Hi. cbn. intuition (subst; auto). }
  destruct (Gen _ _ _ msorted_nil E) as [S Hk]. split; [exact S|]. intros id. rewrite Hk. cbn. tauto.
Qed.

Lemma spent_state_get cid outs spm id m : spent_state s cid outs = Ok spm -> mget id spm = Some m -> contract_assignments_for (sk_state s) id outs = Ok m.
Proof.
  intros E. unfold spent_state in E.
  assert (Gen : forall ids acc spm, (forall id m, mget id acc = Some m -> contract_assignments_for (sk_state s) id outs = Ok m) ->
    rfold (fun acc id => if id =? cid then Ok acc else let! m := contract_assignments_for (sk_state s) id outs in
             Ok (minsert id (merge_spending match mget id acc with Some m' => m' | None => [] end m) acc)) acc ids = Ok spm ->
    (forall id m, mget id spm = Some m -> contract_assignments_for (sk_state s) id outs = Ok m)).
  { clear. induction ids as [|id ids IH]; intros acc spm Ha E; cbn [rfold] in E.
    { injection E as <-. exact Ha. }
    apply rbind_ok in E as (acc1 & E1 & E). apply (IH acc1); [|exact E]. destruct (id =? cid); [injection E1 as <-; exact Ha|].
    apply rbind_ok in E1 as (m & Em & E1). injection E1 as <-. intros id' m'. rewrite mget_insert. destruct (keqb_spec id' id) as [->|N]; [|apply Ha].
    intros G. apply Some_inj in G. subst m'. rewrite merge_id; [exact Em|exact (caf_wfs _ _ _ _ Em)|].
    destruct (mget id acc) as [m'|] eqn:G; [right|left; reflexivity]. apply Ha in G. rewrite Em in G. apply Ok_inj in G. auto. }
  eapply Gen; [|exact E]. discriminate.
Qed.

Lemma blank_builder_ok st id iface X b : blank_builder D st id iface = Ok (X, b) -> (exists r, bc_schema X = df_schema D r) /\ exists T, side X id BLANK b T [] [].
Proof.
  intros E. unfold blank_builder in E. apply rbind_ok in E as (si & _ & E). apply rbind_ok in E as (i & _ & E). destruct (si_impls si); [discriminate|].
  apply rbind_ok in E as (g & _ & E). apply rbind_ok in E as (ex & _ & E). apply rbind_ok in E as (q & _ & E). cbv zeta in E.
  apply rbind_ok in E as (b0 & E5 & E). apply Ok_inj in E. injection E as <- <-. split; [exists (si_schema si); reflexivity|].
  eexists. exact (add_tags_side _ id BLANK _ _ _ _ (side_new _ id BLANK) E5).
Qed.

(** An input which is put back *)
Definition back (method : CloseMethod) (layer : Layer1) (id : N) (x : Inp) (r : N * BSeal * RState) : Prop :=
  fst (fst r) = in_ty x /\ payer_seal ch method layer (use_blank x) id (in_ty x) (velocity_for D s id (in_ty x)) (snd (fst r)) /\ snd r = in_state x.

Definition binv (X : BuildCtx) (method : CloseMethod) (layer : Layer1) (id : N) (T : list (N * N)) (w : TrBuilder * TrBuilder) (l : list Inp) : Prop :=
  forall m, exists O, Forall2 (back method layer id) (with_method m l) O /\
    side X id BLANK (match m with TapretFirst => fst w | OpretFirst => snd w end) T O (map snd (with_method m l)).

Lemma blank_spends_inv X method layer id T rest : forall w l w', binv X method layer id T w l ->
  rfold (blank_spend D s ch X method layer id) w rest = Ok w' -> binv X method layer id T w' (l ++ rest).
Proof.
  induction rest as [|x rest IH]; intros w l w' W E; [injection E as <-; rewrite app_nil_r; exact W|].
  cbn [rfold] in E. apply rbind_ok in E as (w1 & E1 & E). change (x :: rest) with ([x] ++ rest). rewrite app_assoc. apply (IH w1); [|exact E].
  clear IH E w'. destruct x as [seal [o st]]. unfold blank_spend in E1. apply rbind_ok in E1 as (out & Eo & E1). apply output_for_ok in Eo. cbv zeta in E1.
  set (x := (seal, (o, st)) : Inp) in *.
  assert (Hb : back method layer id x (oo_ty o, out, st)) by (split; [reflexivity|]; split; [exact Eo|reflexivity]).
  assert (Hstep : forall b O I b', side X id BLANK b T O I ->
    (let! b := co_builder (t_call X b (TInput o st)) in co_builder (t_call X b (TOwnedRaw (oo_ty o) out st))) = Ok b' ->
    side X id BLANK b' T (O ++ [(oo_ty o, out, st)]) (I ++ [(o, st)])).
  { intros b O I b' S E. apply rbind_ok in E as (b1 & Eb & E). rewrite co_builder_ok in Eb, E.
    exact (side_owned _ _ _ _ _ _ _ _ _ _ _ (side_input _ _ _ _ _ _ _ _ _ _ S Eb) E). }
  intros m. rewrite with_method_snoc. change (os_method (in_seal x)) with (os_method seal). destruct (W m) as (O & F & S). destruct (os_method seal) eqn:Em.
  - apply rbind_ok in E1 as (b & Eb & E1). injection E1 as <-. destruct m; cbn [keqb fst snd].
    + change (keqb OpretFirst OpretFirst) with true. cbn [fst snd]. exists (O ++ [(oo_ty o, out, st)]). rewrite map_app. split; [apply Forall2_app; [exact F|constructor; [exact Hb|constructor]]|].
      exact (Hstep _ _ _ _ S Eb).
    + change (keqb OpretFirst TapretFirst) with false. cbn [fst snd]. rewrite app_nil_r. exists O. auto.
  - apply rbind_ok in E1 as (b & Eb & E1). injection E1 as <-. destruct m; cbn [fst snd].
    + change (keqb TapretFirst OpretFirst) with false. cbn [fst snd]. rewrite app_nil_r. exists O. auto.
    + change (keqb TapretFirst TapretFirst) with true. cbn [fst snd]. exists (O ++ [(oo_ty o, out, st)]). rewrite map_app. split; [apply Forall2_app; [exact F|constructor; [exact Hb|constructor]]|].
      exact (Hstep _ _ _ _ S Eb).
Qed.

Lemma back_nodup method layer id m l O : separate ch use_blank id (velocity_for D s id) l -> NoDup (map in_out l) ->
  (forall x, In x l -> os_method (in_seal x) = m) -> Forall2 (back method layer id) l O -> NoDup (map fst O).
Proof.
  intros Hsep ND Hm F. induction F as [|x r l O M F IH]; [constructor|]. cbn [map]. apply NoDup_cons_iff in ND as [Hn ND].
  destruct M as (M1 & (v & M2 & M3) & _). constructor.
  - intros Hi. apply in_map_iff in Hi as (r' & Er & Hr). 
    assert (Hex : exists y, In y l /\ back method layer id y r').
    { clear -F Hr. induction F as [|y r l O M F IH]; [destruct Hr|]. destruct Hr as [<-|Hr]; [exists y; split; [left; reflexivity|exact M]|].
      destruct (IH Hr) as (z & Hz & Mz). exists z. split; [right; exact Hz|exact Mz]. }
    destruct Hex as (y & Hy & (N1 & (v' & N2 & N3) & _)).
    assert (Ety : in_ty x = in_ty y) by (rewrite <- M1, <- N1, Er; reflexivity).
    assert (Ex : x = y).
    { assert (Eseal : snd (fst r) = snd (fst r')) by (rewrite Er; reflexivity). rewrite M3, N3 in Eseal. apply BRevealed_inj in Eseal.
      injection Eseal as Ev Eb. subst v'. apply Hsep; [left; reflexivity|right; exact Hy|exact Ety| | |exact Eb].
      - rewrite (Hm x (or_introl eq_refl)), (Hm y (or_intror Hy)). reflexivity.
      - rewrite M2, N2. reflexivity. }
    subst y. apply Hn. apply in_map. exact Hy.
  - apply IH; [|exact ND|intros y Hy; apply Hm; right; exact Hy]. intros y z Hy Hz. apply Hsep; right; assumption.
Qed.

Lemma back_moved method layer id l O : Forall2 (back method layer id) l O ->
  Forall2 (moved ch method layer use_blank id (velocity_for D s id)) l (as_shown O).
Proof.
  induction 1 as [|x r l O (M1 & M2 & M3) F IH]; cbn; constructor; [|exact IH]. exists (snd (fst r)). split; [exact M2|]. rewrite M1, M3. reflexivity.
Qed.

(** The blank transitions of a contract *)
Definition blank_ok (method : CloseMethod) (layer : Layer1) (prev : list OutSeal) (id : N) (d : Dichotomy TransitionInfo) : Prop :=
  forall l, spent s id prev l -> separate ch use_blank id (velocity_for D s id) l ->
    l <> [] /\ spends_all id l (di_iter d) /\
    forall t, In t (di_iter d) -> op_ty (ti_transition t) = BLANK /\
      exists R, Forall2 (moved ch method layer use_blank id (velocity_for D s id)) (with_method (ti_method t) l) R /\
        Permutation (shown (ti_transition t)) R.

Lemma blank_for_ok method layer iface prev id m d : orders_ok od -> schemata_small D ->
  contract_assignments_for (sk_state s) id (map os_outpoint prev) = Ok m ->
  blank_for H D P s ch od method layer iface (id, m) = Ok d -> blank_ok method layer prev id d.
Proof.
  intros Ho Hsz Em E l Hsp Hsep. unfold blank_for in E. apply rbind_ok in E as ([X b] & Eb & E). rewrite Eb in E. cbn [rbind fst snd] in E.
  destruct (blank_builder_ok _ _ _ _ _ Eb) as ((r & Hr) & T & S).
  assert (Hs255 : len (fs_owned (bc_schema X)) <= 255) by (rewrite Hr; apply Hsz).
  destruct (caf_ok _ _ _ _ _ Em Hsp) as [W Hp]. pose proof (Permutation_trans (listed_perm od id m Ho) Hp) as Hl. destruct Hsp as [ND _].
  set (lst := listed od id m) in *. apply rbind_ok in E as (w & Ew & E).
  assert (W0 : binv X method layer id T (b, b) []) by (intros []; exists []; split; try constructor; exact S).
  pose proof (blank_spends_inv X method layer id T lst _ _ _ W0 Ew) as W1. cbn [app] in W1.
  destruct (choose_method _ W1) as (Of & HOf).
  set (good := fun (t : TransitionInfo) =>
    with_method (ti_method t) l <> [] /\ op_kind (ti_transition t) = OpTransition /\ op_contract (ti_transition t) = id /\
    Permutation (op_inputs (ti_transition t)) (map in_out (with_method (ti_method t) l)) /\
    (forall o, In o (ti_inputs t) <-> In o (map (fun x => os_outpoint (in_seal x)) (with_method (ti_method t) l))) /\
    op_ty (ti_transition t) = BLANK /\ Permutation (shown (ti_transition t)) (as_shown (Of (ti_method t)))).
  set (bm := fun me => match me with TapretFirst => fst w | OpretFirst => snd w end).
  assert (Hfin : forall me i, finish H P od (bm me) (outputs_with od id m (of_method me)) = Ok i -> ti_method i = me /\ good i).
  { intros me i Ef. destruct (HOf me) as [F Sd].
    assert (NO : NoDup (map fst (Of me))).
    { eapply back_nodup; [| | |exact F].
      - apply (separate_sub _ _ _ _ _ _ Hsep). intros x Hx. apply In_with_method in Hx as [Hx _]. apply (Permutation_in _ Hl). exact Hx.
      - apply NoDup_map_filter. eapply Permutation_NoDup; [apply Permutation_map, Permutation_sym; exact Hl|exact ND].
      - intros x Hx. apply In_with_method in Hx as [_ Hx]. exact Hx. }
    destruct (finish_side H P od X id BLANK _ T (Of me) m l (with_method me lst) me (of_method me) i Ho Hs255 W Hp ND (fun _ => eq_refl) (with_method_perm me _ _ Hl) Sd NO Ef)
      as (K1 & K2 & K3 & K4 & K5 & K6 & K7 & K8). split; [exact K1|]. unfold good. rewrite K1. repeat split; try assumption; apply K7. }
  assert (Hin : forall me, has_inputs (bm me) = false -> with_method me l = []).
  { intros me En. destruct (HOf me) as [_ Sd]. fold (bm me) in Sd. rewrite (side_inputs _ _ _ _ _ _ _ Sd) in En. destruct (map snd (with_method me lst)) eqn:Eq; [|discriminate].
    apply map_eq_nil in Eq. apply Permutation_nil. pose proof (with_method_perm me _ _ Hl) as Q. rewrite Eq in Q. exact Q. }
  apply rbind_ok in E as (infos & Ei & E). cbn [rfold] in Ei.
  assert (Hts : di_iter d = infos /\ infos <> [] /\ NoDup (map ti_method infos) /\ (forall t, In t infos -> good t) /\ forall x, In x l -> In (os_method (in_seal x)) (map ti_method infos)).
  { assert (Hnil : forall me x, with_method me l = [] -> In x l -> os_method (in_seal x) <> me).
    { intros me x En Hx Ex. assert (Hi : In x (with_method me l)) by (apply In_with_method; auto). rewrite En in Hi. exact Hi. }
    pose proof (Hfin TapretFirst) as F1. pose proof (Hfin OpretFirst) as F2. pose proof (Hin TapretFirst) as I1. pose proof (Hin OpretFirst) as I2.
    cbn [bm] in F1, F2, I1, I2.
    assert (Hdi : infos <> [] /\ di_iter d = infos).
    { destruct infos as [|i1 [|i2 [|i3 q]]]; cbn in E; try discriminate; injection E as <-; split; try discriminate; reflexivity. }
    destruct Hdi as [Hne Hdi]. split; [exact Hdi|]. split; [exact Hne|]. clear E Hdi.
    destruct (has_inputs (fst w)), (has_inputs (snd w)); cbn [app] in Ei.
    - apply rbind_ok in Ei as (acc & Ea & Ei). apply rbind_ok in Ea as (i1 & E1 & Ea). injection Ea as <-. apply rbind_ok in Ei as (acc & Ea & Ei).
      apply rbind_ok in Ea as (i2 & E2 & Ea). injection Ea as <-. injection Ei as <-. cbn [app map]. destruct (F1 _ E1) as [M1 G1], (F2 _ E2) as [M2 G2].
      rewrite M1, M2. split; [constructor; [intros [Eq|[]]; discriminate|constructor; [intros []|constructor]]|].
      split; [intros t [<-|[<-|[]]]; assumption|]. intros x Hx. destruct (os_method (in_seal x)); cbn; auto.
    - apply rbind_ok in Ei as (acc & Ea & Ei). apply rbind_ok in Ea as (i1 & E1 & Ea). injection Ea as <-. injection Ei as <-. cbn [app map].
      destruct (F1 _ E1) as [M1 G1]. rewrite M1. split; [constructor; [intros []|constructor]|]. split; [intros t [<-|[]]; assumption|].
      intros x Hx. pose proof (Hnil _ _ (I2 eq_refl) Hx). destruct (os_method (in_seal x)); cbn; [congruence|auto].
    - apply rbind_ok in Ei as (acc & Ea & Ei). injection Ea as <-. apply rbind_ok in Ei as (acc & Ea & Ei). apply rbind_ok in Ea as (i1 & E1 & Ea). injection Ea as <-. injection Ei as <-. cbn [app map].
      destruct (F2 _ E1) as [M1 G1]. rewrite M1. split; [constructor; [intros []|constructor]|]. split; [intros t [<-|[]]; assumption|].
      intros x Hx. pose proof (Hnil _ _ (I1 eq_refl) Hx). destruct (os_method (in_seal x)); cbn; [auto|congruence].
    - injection Ei as <-. contradiction. }
  destruct Hts as (Edi & Hne & N0 & G0 & C0). rewrite Edi. split; [|split].
  - intros El. destruct infos as [|i0 q]; [contradiction|]. destruct (G0 i0 (or_introl eq_refl)) as [Gn _]. apply Gn. rewrite El. reflexivity.
  - split; [exact N0|]. split.
    + intros x Hx. specialize (C0 x Hx). apply in_map_iff in C0 as (t & Et & Ht). exists t. auto.
    + intros t Ht. destruct (G0 t Ht) as (K1 & K2 & K3 & K4 & K5 & _). auto.
  - intros t Ht. destruct (G0 t Ht) as (_ & _ & _ & _ & _ & K6 & K7). split; [exact K6|].
    destruct (HOf (ti_method t)) as [F _]. apply back_moved in F.
    destruct (Permutation_Forall2 (with_method_perm (ti_method t) _ _ Hl) F) as (R & HR & FR). exists R. split; [exact FR|].
    eapply Permutation_trans; [exact K7|exact HR].
Qed.

Lemma blanks_for_ok method layer iface ms : forall acc blanks,
  rfold (fun acc p => let! d := blank_for H D P s ch od method layer iface p in ok_or TooManyBlanks (cpush_back (U24MAX - 1) d acc)) acc ms = Ok blanks ->
  exists ds, blanks = acc ++ ds /\ Forall2 (fun p d => blank_for H D P s ch od method layer iface p = Ok d) ms ds.
Proof.
  induction ms as [|p ms IH]; intros acc blanks E; cbn [rfold] in E; [injection E as <-; exists []; rewrite app_nil_r; split; [reflexivity|constructor]|].
  apply rbind_ok in E as (acc1 & E1 & E). apply rbind_ok in E1 as (d & Ed & E1). apply ok_or_ok in E1. unfold cpush_back in E1.
  destruct (_ <? _) in E1; [|discriminate]. injection E1 as <-. destruct (IH _ _ E) as (ds & -> & F). exists (d :: ds). rewrite <- app_assoc. split; [reflexivity|]. constructor; assumption.
Qed.

Lemma blank_ok_priority method layer prev id d p : blank_ok method layer prev id d -> blank_ok method layer prev id (set_pair_nonce p d).
Proof.
  intros Hb l Hsp Hsep. destruct (Hb l Hsp Hsep) as (B1 & (B2 & B3 & B4) & B5). split; [exact B1|].
  assert (Eit : di_iter (set_pair_nonce p d) = map (set_info_nonce p) (di_iter d)) by (destruct d as [f [se|]]; reflexivity).
  rewrite Eit. split; [split; [|split]|].
  - rewrite map_map. exact B2.
  - intros x Hx. destruct (B3 x Hx) as (t & Ht & Em). exists (set_info_nonce p t). split; [apply in_map; exact Ht|exact Em].
  - intros t Ht. apply in_map_iff in Ht as (t0 & <- & Ht). exact (B4 t0 Ht).
  - intros t Ht. apply in_map_iff in Ht as (t0 & <- & Ht). exact (B5 t0 Ht).
Qed.
End Blank.

Lemma compose_blanks H D P wrap s ch od inv prev method vout priority now batch cid : orders_ok od -> schemata_small D -> InvoiceModel.contract inv = Some cid ->
  compose H D P wrap s ch od inv prev method vout priority now = Ok batch ->
  exists ids, NoDup ids /\ (forall id, In id ids <-> In id (contracts_assigning (sk_index s) (sfrom (map os_outpoint prev))) /\ id <> cid) /\
    Forall2 (blank_ok D s ch method (layer1 (chain_network (beneficiary inv))) prev) ids (ba_blanks batch).
Proof.
  intros Ho Hsz Hc E. set (layer := layer1 (chain_network (beneficiary inv))).
  destruct (compose_ok _ _ _ _ _ _ _ _ _ _ _ _ _ _ E) as (iface & cid' & tt' & a' & X & b & T & ben & m & w & w' & spm & blanks & builders & first & second & K1 & K2 & (r & K3) & (g & Kg & KT) & K4 & K5 & K6 & K7 & K8 & K9 & K10 & K11 & K12 & K13 & K14 & _).
  fold layer in K10. assert (cid' = cid) as -> by (destruct K1 as (n & gg & si & i & im & XX & A1 & _); congruence).
  destruct (spent_state_ok _ _ _ _ K9) as [Ss Hk]. pose proof Ho as (_ & _ & Hoc & _). specialize (Hoc spm).
  exists (map fst (or_contracts od spm)). split; [|split].
  - eapply Permutation_NoDup; [apply Permutation_map, Permutation_sym; exact Hoc|]. exact (msorted_NoDup _ Ss).
  - intros id. rewrite <- Hk. split; apply Permutation_in; [|apply Permutation_sym]; apply Permutation_map; exact Hoc.
  - rewrite K14. cbn [set_priority ba_blanks]. unfold blanks_for in K10. destruct (blanks_for_ok _ _ _ _ _ _ _ _ _ _ _ _ K10) as (ds & -> & F). cbn [app].
    assert (Hget : forall q, In q (or_contracts od spm) -> contract_assignments_for (sk_state s) (fst q) (map os_outpoint prev) = Ok (snd q)).
    { intros [id q] Hq. apply (Permutation_in _ Hoc) in Hq. apply (In_mget _ _ _ Ss) in Hq. exact (spent_state_get _ _ _ _ _ _ K9 Hq). }
    clear -F Hget Ho Hsz. induction F as [|[id q] d ms ds Ed F IH]; cbn; constructor.
    + apply blank_ok_priority. eapply blank_for_ok; [exact Ho|exact Hsz| |exact Ed]. exact (Hget (id, q) (or_introl eq_refl)).
    + apply IH. intros q' Hq. apply Hget. right. exact Hq.
Qed.
