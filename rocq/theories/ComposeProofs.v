(** * Proofs about composing payments *)
From Verif Require Import Base Core InvoiceModel SupplModel ContainerModel PIndexModel StateModel StashModel StockModel IfaceModel
  BuilderModel BuilderSpec BuilderProofs BuilderCalls BuilderComplete BuilderProps ComposeModel ComposeSpec.
Local Open Scope N_scope.

(** ** A builder and what it holds *)
Definition side (X : BuildCtx) (cid tt : N) (b : TrBuilder) (T : list (N * N)) (O : list (N * BSeal * RState)) (I : list (Opout * RState)) : Prop :=
  exists l, t_built X cid tt b l /\ tags l = T /\ owned l = O /\ ins l = I.

Lemma side_new X cid tt : side X cid tt (tb_new cid tt) [] [] [].
Proof. exists []. split; [constructor|]. repeat split. Qed.

Lemma side_call X cid tt b T O I c b' : side X cid tt b T O I -> t_call X b c = Ok b' ->
  exists l i, t_built X cid tt b l /\ tags l = T /\ owned l = O /\ ins l = I /\ t_asks X tt l c i /\ allowed X l i /\ t_built X cid tt b' (l ++ [i]).
Proof.
  intros (l & B & HT & HO & HI) E. destruct (t_step X cid tt b l c b' (t_built_repr _ _ _ _ _ B) E) as (i & Hi & Ha & _).
  exists l, i. repeat (split; [assumption|]). econstructor; eassumption.
Qed.
Lemma tags_app l l' : tags (l ++ l') = tags l ++ tags l'.
Proof. apply filter_map_app. Qed.
Lemma owned_app l l' : owned (l ++ l') = owned l ++ owned l'.
Proof. apply filter_map_app. Qed.
Lemma ins_app l l' : ins (l ++ l') = ins l ++ ins l'.
Proof. apply filter_map_app. Qed.

Lemma side_input X cid tt b T O I o st b' : side X cid tt b T O I -> t_call X b (TInput o st) = Ok b' -> side X cid tt b' T O (I ++ [(o, st)]).
Proof.
  intros S E. destruct (side_call _ _ _ _ _ _ _ _ _ S E) as (l & i & B & HT & HO & HI & Hi & _ & B'). inversion Hi; subst i o0 st0.
  exists (l ++ [ItIn o st]). split; [exact B'|]. rewrite tags_app, owned_app, ins_app, HT, HO, HI. cbn. rewrite !app_nil_r. auto.
Qed.
Lemma side_owned X cid tt b T O I ty s st b' : side X cid tt b T O I -> t_call X b (TOwnedRaw ty s st) = Ok b' ->
  side X cid tt b' T (O ++ [(ty, s, st)]) I.
Proof.
  intros S E. destruct (side_call _ _ _ _ _ _ _ _ _ S E) as (l & i & B & HT & HO & HI & Hi & _ & B'). inversion Hi; subst.
  eexists. split; [exact B'|]. rewrite tags_app, owned_app, ins_app. cbn. rewrite !app_nil_r. auto.
Qed.
Lemma side_fungible X cid tt b T O I ty s v bl b' : side X cid tt b T O I -> t_call X b (TFungibleRaw ty s v bl) = Ok b' ->
  exists tag, latest T ty = Some tag /\ side X cid tt b' T (O ++ [(ty, s, RAmount v bl tag)]) I.
Proof.
  intros S E. destruct (side_call _ _ _ _ _ _ _ _ _ S E) as (l & i & B & HT & HO & HI & Hi & _ & B'). inversion Hi; subst.
  exists tag. split; [assumption|]. eexists. split; [exact B'|]. rewrite tags_app, owned_app, ins_app. cbn. rewrite !app_nil_r. auto.
Qed.
Lemma side_data X cid tt b T O I ty s v salt b' : side X cid tt b T O I -> t_call X b (TDataRaw ty s v salt) = Ok b' ->
  side X cid tt b' T (O ++ [(ty, s, RData v salt)]) I.
Proof.
  intros S E. destruct (side_call _ _ _ _ _ _ _ _ _ S E) as (l & i & B & HT & HO & HI & Hi & _ & B'). inversion Hi; subst.
  eexists. split; [exact B'|]. rewrite tags_app, owned_app, ins_app. cbn. rewrite !app_nil_r. auto.
Qed.
Lemma side_tag X cid tt b T O I ty tag b' : side X cid tt b T O I -> t_call X b (TAssetTagRaw ty tag) = Ok b' ->
  side X cid tt b' (T ++ [(ty, tag)]) O I.
Proof.
  intros S E. destruct (side_call _ _ _ _ _ _ _ _ _ S E) as (l & i & B & HT & HO & HI & Hi & _ & B'). inversion Hi; subst.
  eexists. split; [exact B'|]. rewrite tags_app, owned_app, ins_app. cbn. rewrite !app_nil_r. auto.
Qed.

Lemma add_tags_side X cid tt tags0 : forall b T b', side X cid tt b T [] [] -> add_tags X b tags0 = Ok b' -> side X cid tt b' (T ++ tags0) [] [].
Proof.
  unfold add_tags. induction tags0 as [|[ty tag] r IH]; intros b T b' S E; [injection E as <-; rewrite app_nil_r; exact S|].
  cbn [rfold fst snd] in E. apply rbind_ok in E as (b1 & E1 & E). destruct (t_call X b (TAssetTagRaw ty tag)) as [b2| |] eqn:Ec; try discriminate.
  injection E1 as ->. pose proof (IH _ _ _ (side_tag _ _ _ _ _ _ _ _ _ _ S Ec) E) as R. rewrite <- app_assoc in R. exact R.
Qed.

(** ** What a completed builder gives *)
Lemma made_nonce t p : made (set_nonce t p) = made t.
Proof. reflexivity. Qed.
Lemma Permutation_set {A} (l l' : list A) : NoDup l -> NoDup l' -> (forall x, In x l <-> In x l') -> Permutation l l'.
Proof. apply NoDup_Permutation. Qed.

Definition as_shown (O : list (N * BSeal * RState)) : list (N * Assign) :=
  map (fun p => (fst (fst p), unblinded (assigned (snd (fst p)) (snd p)))) O.

Lemma finish_ok H P od X cid tt b T O I outs i : orders_ok od -> len (fs_owned (bc_schema X)) <= 255 ->
  side X cid tt b T O I -> NoDup (map fst I) -> finish H P od b outs = Ok i ->
  exists t, complete_transition P (or_rights od) b = Ok t /\ transition_info_new H t outs = Ok i /\ ti_transition i = t /\
    op_kind t = OpTransition /\ op_contract t = cid /\ op_ty t = tt /\
    Permutation (op_inputs t) (map fst I) /\ Permutation (shown t) (as_shown (kept O)).
Proof.
  intros (_ & _ & _ & Ho) Hs (l & B & HT & HO & HI) ND E. unfold finish in E. apply rbind_ok in E as (t & Ec & E).
  assert (Ec' : complete_transition P (or_rights od) b = Ok t) by (destruct (complete_transition P (or_rights od) b); cbn in Ec; congruence).
  exists t. split; [exact Ec'|]. destruct (transition_info_new H t outs) as [i'| |] eqn:Ei; try discriminate. injection E as ->.
  split; [reflexivity|]. split.
  { unfold transition_info_new in Ei. destruct outs; [discriminate|]. destruct (_ <? _); [discriminate|]. destruct (existsb _ _); [discriminate|].
    injection Ei as <-. reflexivity. }
  destruct (C44_transition_partial X P (or_rights od) cid tt b l t Ho Hs B Ec') as (K1 & K2 & K3 & _ & (_ & K4 & _) & (K5 & K6) & _).
  repeat (split; [assumption|]). rewrite <- HI, <- HO. split.
  - apply Permutation_set; [exact K5|rewrite HI; exact ND|exact K6].
  - exact K4.
Qed.

Lemma kept_id (O : list (N * BSeal * RState)) : NoDup (map fst O) -> kept O = O.
Proof.
  induction O as [|p q IH]; [reflexivity|]. cbn [map kept]. intros H. apply NoDup_cons_iff in H as [Hn H].
  destruct (existsb _ q) eqn:E; [|rewrite IH by exact H; reflexivity].
  apply existsb_exists in E as (p' & Hi & Ek). apply keqb_true in Ek. destruct Hn. rewrite <- Ek. apply in_map. exact Hi.
Qed.

(** ** The state on outputs *)
Definition flat (m : Spending) : list Inp := flat_map (fun p => map (pair (fst p)) (snd p)) m.
Definition wfs (m : Spending) : Prop :=
  msorted m /\ forall seal (lm : omap Opout RState), mget seal m = Some lm -> msorted lm /\ lm <> [].

Lemma In_flat m seal o st : wfs m ->
  In (seal, (o, st)) (flat m) <-> exists lm : omap Opout RState, mget seal m = Some lm /\ mget o lm = Some st.
Proof.
  intros [S W]. unfold flat. rewrite in_flat_map. split.
  - intros ([seal' lm] & Hi & Hp). cbn in Hp. apply in_map_iff in Hp as ([o' st'] & E & Hp). injection E as -> -> ->.
    pose proof (In_mget _ _ _ S Hi) as G. exists lm. split; [exact G|]. apply In_mget; [apply (W _ _ G)|exact Hp].
  - intros (lm & G & Go). exists (seal, lm). split; [apply mget_In; exact G|]. cbn. apply in_map. apply mget_In. exact Go.
Qed.

Lemma flat_nil_iff m : wfs m -> flat m = [] <-> m = [].
Proof.
  intros [S W]. split; [|intros ->; reflexivity]. destruct m as [|[seal lm] r]; [reflexivity|]. cbn.
  assert (G : mget seal ((seal, lm) :: r) = Some lm) by (cbn; unfold keqb; rewrite cmp_refl; reflexivity).
  destruct (W _ _ G) as [_ N]. destruct lm; [contradiction|discriminate].
Qed.

Lemma NoDup_flat m : wfs m -> NoDup (map (fun x : Inp => (fst x, fst (snd x))) (flat m)).
Proof.
  intros [S W]. unfold flat. assert (Hk := msorted_NoDup _ S). assert (Hall : forall p, In p m -> NoDup (map fst (snd p))).
  { intros [seal lm] Hi. apply (In_mget _ _ _ S) in Hi. apply W in Hi as [Hs _]. exact (msorted_NoDup _ Hs). }
  clear S W. induction m as [|[seal lm] r IH]; [constructor|]. cbn [flat_map]. rewrite map_app. apply NoDup_cons_iff in Hk as [Hn Hk].
  apply NoDup_app_intro.
  - rewrite map_map. cbn. specialize (Hall _ (or_introl eq_refl)). cbn in Hall. revert Hall. clear. induction lm as [|[o st] q IH]; [constructor|].
    cbn. intros H. apply NoDup_cons_iff in H as [Hn H]. constructor; [|exact (IH H)]. intros Hi. apply Hn.
    apply in_map_iff in Hi as ([o' st'] & E & Hi). injection E as ->. apply in_map_iff. exists (o, st'). auto.
  - apply IH; [exact Hk|intros p Hp; apply Hall; right; exact Hp].
  - intros x Hx Hy. apply in_map_iff in Hx as (x1 & <- & Hx). apply in_map_iff in Hx as (q & <- & _). cbn in Hy.
    apply in_map_iff in Hy as (y & E & Hy). apply in_flat_map in Hy as (p & Hp & Hy). apply in_map_iff in Hy as (q' & <- & _). cbn in E.
    injection E as E _. apply Hn. change (In seal (map fst r)). rewrite <- E. apply in_map. exact Hp.
Qed.

Lemma flat_map_perm2 {A B} (f g : A -> list B) l l' : Permutation l l' -> (forall a, Permutation (f a) (g a)) -> Permutation (flat_map f l) (flat_map g l').
Proof.
  intros Hp Hf. transitivity (flat_map g l).
  - clear Hp. induction l; cbn; [constructor|]. apply Permutation_app; auto.
  - clear Hf. induction Hp; cbn; [constructor|apply Permutation_app_head; assumption| |etransitivity; eassumption].
    rewrite !app_assoc. apply Permutation_app_tail, Permutation_app_comm.
Qed.
Lemma listed_perm od cid m : orders_ok od -> Permutation (listed od cid m) (flat m).
Proof.
  intros (Ho & Ha & _). unfold listed, flat. apply flat_map_perm2; [apply Ho|]. intros p. apply Permutation_map. apply Ha.
Qed.
Lemma outputs_perm od cid m f : orders_ok od -> Permutation (outputs_with od cid m f) (filter f (mkeys m)).
Proof. intros (Ho & _). unfold outputs_with. apply filter_perm. apply Permutation_map. apply Ho. Qed.

(** Putting items under their seals *)
Lemma put_wfs m a : wfs m -> wfs (put_spending m a).
Proof.
  intros [S W]. unfold put_spending. split; [apply minsert_sorted; exact S|]. intros seal lm. rewrite mget_insert.
  destruct (keqb_spec seal (oa_seal a)) as [->|N].
  - intros E. apply Some_inj in E. subst lm. split.
    + apply minsert_sorted. destruct (mget (oa_seal a) m) as [l|] eqn:G; [apply (W _ _ G)|constructor].
    + intros E. pose proof (mget_insert_eq (oa_opout a) (oa_state a) match mget (oa_seal a) m with Some l => l | None => [] end) as G.
      rewrite E in G. discriminate.
  - apply W.
Qed.
Definition has (m : Spending) (x : Inp) : Prop := exists lm : omap Opout RState, mget (fst x) m = Some lm /\ mget (fst (snd x)) lm = Some (snd (snd x)).
Lemma put_has m a x : has (put_spending m a) x -> (fst x = oa_seal a /\ fst (snd x) = oa_opout a /\ snd (snd x) = oa_state a) \/ has m x.
Proof.
  intros (lm & G & Go). unfold put_spending in G. rewrite mget_insert in G. destruct (keqb_spec (fst x) (oa_seal a)) as [E|N].
  - apply Some_inj in G. subst lm. rewrite mget_insert in Go. destruct (keqb_spec (fst (snd x)) (oa_opout a)) as [E'|N'].
    + apply Some_inj in Go. left. auto.
    + right. destruct (mget (oa_seal a) m) as [l|] eqn:G; [|discriminate]. exists l. rewrite E. auto.
  - right. exists lm. auto.
Qed.
Lemma put_kept m a seal o : (exists st, has m (seal, (o, st))) \/ (seal = oa_seal a /\ o = oa_opout a) -> exists st, has (put_spending m a) (seal, (o, st)).
Proof.
  unfold has. cbn. intros Hh. destruct (keqb_spec (oa_seal a) seal) as [E|N].
  - subst seal. destruct (keqb_spec (oa_opout a) o) as [E|N].
    + subst o. exists (oa_state a). eexists. unfold put_spending. rewrite mget_insert_eq. split; [reflexivity|]. apply mget_insert_eq.
    + destruct Hh as [(st & lm & G & Go)|[_ E]]; [|congruence]. exists st. eexists. unfold put_spending. rewrite mget_insert_eq, G.
      split; [reflexivity|]. rewrite mget_insert_ne; assumption.
  - destruct Hh as [(st & lm & G & Go)|[E _]]; [|congruence]. exists st, lm. unfold put_spending. rewrite mget_insert_ne; auto.
Qed.

Definition put_if (outs : list Outpoint) (m : Spending) (a : OutAssign) : Spending :=
  if existsb (keqb (os_outpoint (oa_seal a))) outs then put_spending m a else m.
Lemma put_all outs l : forall m, wfs m -> wfs (fold_left (put_if outs) l m) /\
  (forall x, has (fold_left (put_if outs) l m) x ->
     has m x \/ exists a, In a l /\ fst x = oa_seal a /\ fst (snd x) = oa_opout a /\ snd (snd x) = oa_state a /\ In (os_outpoint (fst x)) outs) /\
  (forall seal o, (exists st, has m (seal, (o, st))) \/ (exists a, In a l /\ seal = oa_seal a /\ o = oa_opout a /\ In (os_outpoint seal) outs) ->
     exists st, has (fold_left (put_if outs) l m) (seal, (o, st))).
Proof.
  induction l as [|a l IH]; intros m W; cbn [fold_left].
  { split; [exact W|]. split; [intros x Hx; left; exact Hx|]. intros seal o [Hh|(a & [] & _)]. exact Hh. }
  assert (E : existsb (keqb (os_outpoint (oa_seal a))) outs = true <-> In (os_outpoint (oa_seal a)) outs).
  { rewrite existsb_exists. split; [intros (o & Ho & Eo); apply keqb_true in Eo; rewrite Eo; exact Ho|intros Ho; eexists; split; [exact Ho|apply keqb_refl]]. }
  assert (W1 : wfs (put_if outs m a)) by (unfold put_if; destruct (existsb _ _); [apply put_wfs|]; exact W).
  destruct (IH _ W1) as (I1 & I2 & I3). split; [exact I1|]. split.
  - intros x Hx. destruct (I2 x Hx) as [Hh|(a' & Ha' & R)]; [|right; exists a'; split; [right; exact Ha'|exact R]].
    unfold put_if in Hh. destruct (existsb _ _) eqn:Ex; [|left; exact Hh].
    destruct (put_has _ _ _ Hh) as [(E1 & E2 & E3)|Hm]; [|left; exact Hm]. right. exists a. split; [left; reflexivity|]. rewrite E1. repeat split; auto. apply E; reflexivity.
  - intros seal o Hh. apply I3. destruct Hh as [Hm|(a' & [<-|Ha'] & R)].
    + left. unfold put_if. destruct (existsb _ _); [apply put_kept; left; exact Hm|exact Hm].
    + left. destruct R as (-> & -> & Hin). unfold put_if. rewrite (proj2 E Hin). apply put_kept. right. auto.
    + right. exists a'. auto.
Qed.

Definition all_outs (c : MemContract) : list OutAssign := outs_all KFungible c ++ outs_all KStructured c ++ outs_all KDeclarative c ++ outs_all KAttachment c.
Lemma In_all_outs c a : In a (all_outs c) <-> exists k, In a (outs_all k c).
Proof.
  unfold all_outs. rewrite !in_app_iff. split.
  - intros [Ha|[Ha|[Ha|Ha]]]; eauto.
  - intros ([] & Ha); auto.
Qed.

(** The map holds the state which is spent, under its seals *)
Lemma caf_ok s cid prev m l : contract_assignments_for (sk_state s) cid (map os_outpoint prev) = Ok m -> spent s cid prev l ->
  wfs m /\ Permutation (flat m) l.
Proof.
  intros E [ND Hl]. unfold contract_assignments_for in E. apply rbind_ok in E as (c & Ec & E). injection E as <-.
  assert (Hc : contract_state (sk_state s) cid = Ok c) by (destruct (contract_state (sk_state s) cid); cbn in Ec; congruence).
  fold (all_outs c). change (fun m a => if existsb (keqb (os_outpoint (oa_seal a))) (map os_outpoint prev) then put_spending m a else m) with (put_if (map os_outpoint prev)).
  destruct (put_all (map os_outpoint prev) (all_outs c) []) as (W & I2 & I3); [split; [constructor|discriminate]|].
  set (m := fold_left _ _ _) in *. split; [exact W|].
  assert (Hown : forall x, owns s cid x <-> exists a, In a (all_outs c) /\ in_seal x = oa_seal a /\ in_out x = oa_opout a /\ in_state x = oa_state a).
  { intros x. split.
    - intros (c' & k & w & Hc' & Hi). rewrite Hc in Hc'. apply Ok_inj in Hc'. subst c'. eexists. split; [apply In_all_outs; exists k; exact Hi|]. auto.
    - intros (a & Ha & E1 & E2 & E3). apply In_all_outs in Ha as (k & Hk). exists c, k, (oa_witness a). split; [exact Hc|]. rewrite E1, E2, E3. destruct a; exact Hk. }
  apply NoDup_Permutation.
  - apply (NoDup_map_inv (fun x : Inp => (fst x, fst (snd x)))). apply NoDup_flat. exact W.
  - apply (NoDup_map_inv in_out). exact ND.
  - assert (Huniq : forall x y, In x l -> In y l -> in_out x = in_out y -> x = y).
    { clear -ND. induction l as [|z l IH]; [intros x y []|]. cbn in ND. apply NoDup_cons_iff in ND as [Hn ND].
      intros x y [<-|Hx] [<-|Hy] E; [reflexivity|destruct Hn; rewrite E; apply in_map; exact Hy|destruct Hn; rewrite <- E; apply in_map; exact Hx|auto]. }
    assert (Hfwd : forall x, has m x -> In x l).
    { intros x Hx. destruct (I2 x Hx) as [(lm & G & _)|(a & Ha & E1 & E2 & E3 & Ho)]; [discriminate G|]. apply Hl. split; [|exact Ho].
      apply Hown. exists a. auto. }
    intros [seal [o st]]. rewrite (In_flat m seal o st W). change (has m (seal, (o, st)) <-> In (seal, (o, st)) l). split; [apply Hfwd|].
    intros Hi. pose proof Hi as Hi'. apply Hl in Hi' as [Ho Hp]. apply Hown in Ho as (a & Ha & E1 & E2 & E3). cbn in E1, E2, E3, Hp.
    destruct (I3 seal o) as [st' Hs']; [right; exists a; auto|]. pose proof (Huniq _ _ (Hfwd _ Hs') Hi eq_refl) as E. rewrite <- E. exact Hs'.
Qed.
