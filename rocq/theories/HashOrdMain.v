(** * Proofs about the order of hash maps: C78, the whole of composing *)
From Verif Require Import Base Core InvoiceModel SupplModel ContainerModel PIndexModel StateModel StashModel StockModel IfaceModel
  BuilderModel BuilderSpec BuilderProofs BuilderCalls BuilderComplete BuilderProps ComposeModel ComposeSpec ComposeProofs ComposeMain ComposePaid ComposeBlank
  IdentSpec IdentProofs DetSpec DetProofs HashOrdSpec HashOrdItems HashOrdProofs.
Local Open Scope N_scope.

(** ** Paying *)
Section Paying.
Context (D : Defs) (wrap : bool) (s : Stock) (ch : Choices).
Context (X : BuildCtx) (method : CloseMethod) (layer : Layer1) (cid a : N).

Definition set_data (d : list N) (w : Work) : Work :=
  {| wk_main := wk_main w; wk_alt := wk_alt w; wk_sum := wk_sum w; wk_sum_alt := wk_sum_alt w; wk_data := d; wk_data_main := wk_data_main w |}.
Lemma wk_call_set main c d w : wk_call X main c (set_data d w) = rmap (set_data d) (wk_call X main c w).
Proof. unfold wk_call. cbn [set_data wk_main wk_alt]. destruct (t_call X (if main then wk_main w else wk_alt w) c); reflexivity. Qed.
Lemma opt_set (c : bool) main call d w :
  (if c then wk_call X main call (set_data d w) else Ok (set_data d w)) = rmap (set_data d) (if c then wk_call X main call w else Ok w).
Proof. destruct c; [apply wk_call_set|reflexivity]. Qed.
Lemma rbind_set {B} d (r : result ComposeError Work) (f : Work -> result ComposeError B) : rbind (rmap (set_data d) r) f = rbind r (fun w => f (set_data d w)).
Proof. destruct r; reflexivity. Qed.

Lemma pay_amount_set ben amt d w : pay_amount D wrap s ch X method layer cid a ben amt (set_data d w) =
  rmap (set_data d) (pay_amount D wrap s ch X method layer cid a ben amt w).
Proof.
  unfold pay_amount. cbn [set_data wk_sum wk_sum_alt]. destruct (wk_sum w <? amt); [reflexivity|].
  destruct (sub64 wrap (wk_sum w) (wk_sum_alt w)) as [sm| |]; cbn [rbind]; try reflexivity. destruct (if sm <? amt then (sm, amt - sm) else (amt, 0)) as [pm pa]. cbv zeta.
  fold (set_data d w). rewrite opt_set, rbind_set. destruct (if 0 <? pm then _ else _) as [w1| |]; cbn [rbind]; try reflexivity.
  rewrite opt_set, rbind_set. destruct (if 0 <? pa then _ else _) as [w2| |]; cbn [rbind]; try reflexivity.
  destruct (output_for D s ch UChange method layer cid a) as [change| |]; cbn [rbind]; try reflexivity.
  rewrite opt_set, rbind_set. destruct (if pm <? sm then _ else _) as [w3| |]; cbn [rbind]; try reflexivity.
  cbn [set_data wk_sum_alt]. fold (set_data d w3). apply opt_set.
Qed.
Lemma pay_data_set ben alloc d w : Permutation (wk_data w) d -> pay_data ch X cid a ben alloc (set_data d w) = rmap (set_data d) (pay_data ch X cid a ben alloc w).
Proof.
  intros Hp. unfold pay_data. cbn [set_data wk_data wk_data_main]. fold (set_data d w). rewrite (existsb_perm _ _ _ Hp).
  destruct (existsb (N.eqb alloc) d); [apply wk_call_set|reflexivity].
Qed.
Lemma pay_eqv ben st w w' w1 : eqv w w' -> pay D wrap s ch X method layer cid a ben st w = Ok w1 ->
  exists w1', pay D wrap s ch X method layer cid a ben st w' = Ok w1' /\ wk_main w1' = wk_main w1 /\ wk_alt w1' = wk_alt w1.
Proof.
  intros (E1 & E2 & E3 & E4 & E5 & E6) E. assert (Ew : w' = set_data (wk_data w') w) by (destruct w, w'; cbn in *; subst; reflexivity).
  exists (set_data (wk_data w') w1). split; [|split; reflexivity]. rewrite Ew. cbn [set_data wk_data]. fold (set_data (wk_data w') w).
  destruct st; cbn [pay] in *; try discriminate.
  - rewrite pay_amount_set, E. reflexivity.
  - rewrite pay_data_set by exact E5. rewrite E. reflexivity.
Qed.

(** Paying puts no rights *)
Definition novoid (e : list Item) : Prop := forall ty seal, ~ In (ty, seal, RVoid) (owned e).
Definition grown (tt : N) (lm la : list Item) (w : Work) : Prop :=
  exists em ea, t_built X cid tt (wk_main w) (lm ++ em) /\ novoid em /\ t_built X cid tt (wk_alt w) (la ++ ea) /\ novoid ea.
Lemma novoid_snoc e i : novoid e -> (forall ty seal, i <> ItOwn ty seal RVoid) -> novoid (e ++ [i]).
Proof.
  intros He Hi ty seal Hx. rewrite owned_app' in Hx. apply in_app_or in Hx as [Hx|Hx]; [exact (He _ _ Hx)|].
  destruct i; cbn in Hx; try tauto. destruct Hx as [E|[]]. injection E as -> -> ->. exact (Hi _ _ eq_refl).
Qed.
Lemma call_grown tt lm la main c w w' : grown tt lm la w -> (forall l i, t_asks X tt l c i -> forall ty seal, i <> ItOwn ty seal RVoid) ->
  wk_call X main c w = Ok w' -> grown tt lm la w'.
Proof.
  intros (em & ea & Bm & Nm & Ba & Na) Hc E. apply wk_call_ok in E as (b & Eb & ->). unfold grown. cbn [wk_main wk_alt]. destruct main.
  - destruct (t_step X cid tt _ _ _ b (t_built_repr _ _ _ _ _ Bm) Eb) as (i & Hi & _). pose proof (t_built_call X cid tt _ _ _ _ _ Bm Eb Hi) as B.
    rewrite <- app_assoc in B. exists (em ++ [i]), ea. split; [exact B|]. split; [apply novoid_snoc; [exact Nm|exact (Hc _ _ Hi)]|]. auto.
  - destruct (t_step X cid tt _ _ _ b (t_built_repr _ _ _ _ _ Ba) Eb) as (i & Hi & _). pose proof (t_built_call X cid tt _ _ _ _ _ Ba Eb Hi) as B.
    rewrite <- app_assoc in B. exists em, (ea ++ [i]). split; [exact Bm|]. split; [exact Nm|]. split; [exact B|]. apply novoid_snoc; [exact Na|exact (Hc _ _ Hi)].
Qed.
Lemma amount_grown tt lm la (c : bool) main ty seal v bl w w' : grown tt lm la w ->
  (if c then wk_call X main (TFungibleRaw ty seal v bl) w else Ok w) = Ok w' -> grown tt lm la w'.
Proof.
  intros G. destruct c; [|intros E; injection E as <-; exact G]. apply call_grown; [exact G|]. intros l i Hi. inversion Hi; subst. intros; discriminate.
Qed.
Lemma pay_grown tt lm la ben st w w' : grown tt lm la w -> pay D wrap s ch X method layer cid a ben st w = Ok w' -> grown tt lm la w'.
Proof.
  intros G E. destruct st; cbn [pay] in E; try discriminate.
  - unfold pay_amount in E. destruct (_ <? _); [discriminate|]. apply rbind_ok in E as (sm & _ & E). destruct (if sm <? _ then _ else _) as [pm pa]. cbv zeta in E.
    apply rbind_ok in E as (w1 & E1 & E). apply (amount_grown _ _ _ _ _ _ _ _ _ _ _ G) in E1. apply rbind_ok in E as (w2 & E2 & E).
    apply (amount_grown _ _ _ _ _ _ _ _ _ _ _ E1) in E2. apply rbind_ok in E as (change & _ & E). apply rbind_ok in E as (w3 & E3 & E).
    apply (amount_grown _ _ _ _ _ _ _ _ _ _ _ E2) in E3. exact (amount_grown _ _ _ _ _ _ _ _ _ _ _ E3 E).
  - unfold pay_data in E. destruct (existsb _ _); [|discriminate]. revert E. apply call_grown; [exact G|]. intros l i Hi. inversion Hi; subst. intros; discriminate.
Qed.
End Paying.

(** ** Completing *)
Lemma finish_same H P od od' X cid tt b l outs outs' me : orders_ok od -> orders_ok od' -> t_built X cid tt b l -> one_right l ->
  Permutation outs outs' -> (forall x, In x outs -> os_method x = me) -> finish H P od b outs = finish H P od' b outs'.
Proof.
  intros (_ & _ & _ & Ho) (_ & _ & _ & Ho') B O Hp Hm. unfold finish. pose proof (rt_op _ _ _ _ _ (t_built_repr _ _ _ _ _ B)) as R.
  assert (Ec : complete_transition P (or_rights od) b = complete_transition P (or_rights od') b).
  { unfold complete_transition. rewrite (complete_single X _ _ l l R R (fun k => eq_refl) P (or_rights od) (or_rights od') (tb_inputs b) Ho Ho' O). reflexivity. }
  rewrite Ec. destruct (complete_transition P (or_rights od') b) as [t| |]; cbn [co_builder rmap_err rbind]; try reflexivity.
  assert (Et : transition_info_new H t outs = transition_info_new H t outs'); [|rewrite Et; reflexivity].
  destruct outs as [|x outs]; [apply Permutation_nil in Hp; subst outs'; reflexivity|].
  destruct outs' as [|x' outs']; [apply Permutation_sym, Permutation_nil in Hp; discriminate|]. unfold transition_info_new.
  assert (Es : sfrom (map os_outpoint (x :: outs)) = sfrom (map os_outpoint (x' :: outs'))).
  { apply sfrom_same. intros o. split; apply Permutation_in; [|apply Permutation_sym]; apply Permutation_map; exact Hp. }
  rewrite Es. assert (Emx : os_method x = me) by (apply Hm; left; reflexivity).
  assert (Emx' : os_method x' = me) by (apply Hm; apply (Permutation_in _ (Permutation_sym Hp)); left; reflexivity).
  rewrite Emx, Emx', (existsb_perm _ _ _ Hp). reflexivity.
Qed.
Lemma outputs_both od od' cid m f : orders_ok od -> orders_ok od' -> Permutation (outputs_with od cid m f) (outputs_with od' cid m f).
Proof. intros Ho Ho'. etransitivity; [apply outputs_perm; exact Ho|]. apply Permutation_sym. apply outputs_perm. exact Ho'. Qed.
Lemma outputs_method od cid m f me : (forall x, f x = keqb (os_method x) me) -> forall x, In x (outputs_with od cid m f) -> os_method x = me.
Proof. intros Hf x Hx. apply filter_In in Hx as [_ Hx]. rewrite Hf in Hx. apply keqb_eq. exact Hx. Qed.

(** ** Rights of the contract *)
Lemma main_right D s ch method layer cid a base m l e : owned base = [] -> forallb (out_known D s ch method layer cid a) l = true ->
  single_rights (other_types a l) -> novoid e -> one_right ((base ++ flat_map (put_of D s ch method layer cid a) (with_method m l)) ++ e).
Proof.
  intros Bo K Hs He ty seal seal' L L'. apply latest_In in L, L'. rewrite !owned_app', Bo in L, L'. cbn [app] in L, L'.
  assert (K' : forallb (out_known D s ch method layer cid a) (with_method m l) = true).
  { rewrite forallb_forall in K |- *. intros x Hx. apply In_with_method in Hx as [Hx _]. exact (K x Hx). }
  apply in_app_or in L as [L|L]; [|destruct (He _ _ L)]. apply in_app_or in L' as [L'|L']; [|destruct (He _ _ L')].
  apply (put_void D s ch method layer cid a _ _ _ K') in L as (x & Hx & Sx & Tx & Ox).
  apply (put_void D s ch method layer cid a _ _ _ K') in L' as (y & Hy & Sy & Ty & Oy).
  assert (Hin : forall z, In z (other_types a (with_method m l)) -> In z (other_types a l) /\ os_method (in_seal z) = m).
  { intros z Hz. unfold other_types in *. apply filter_In in Hz as [Hz Hf]. apply In_with_method in Hz as [Hz Hmm]. split; [apply filter_In; auto|exact Hmm]. }
  destruct (Hin x Hx) as [Ix Mx]. destruct (Hin y Hy) as [Iy My].
  assert (x = y) by (apply Hs; congruence). subst y. congruence.
Qed.

(** ** Other contracts *)
Section Blank.
Context (H : Hashes) (D : Defs) (P : Pedersen) (s : Stock) (ch : Choices).
Context (X : BuildCtx) (method : CloseMethod) (layer : Layer1) (id : N).

Definition bknown (x : Inp) : bool := known D s ch method layer id (use_blank x) (in_ty x).
Definition bput (x : Inp) : list Item := ItIn (in_out x) (in_state x) :: goes D s ch method layer id (use_blank x) (in_ty x) (in_state x).
Definition blanked (w : TrBuilder * TrBuilder) (l : list Inp) (w' : TrBuilder * TrBuilder) : Prop :=
  forallb bknown l = true /\
  t_run X (fst w) (map call_of (flat_map bput (with_method TapretFirst l))) = Ok (fst w') /\
  t_run X (snd w) (map call_of (flat_map bput (with_method OpretFirst l))) = Ok (snd w').

Lemma blank_spend_iff w x w' : blank_spend D s ch X method layer id w x = Ok w' <-> blanked w [x] w'.
Proof.
  destruct x as [seal [o st]]. unfold blank_spend. cbv beta iota zeta. unfold blanked. cbn [forallb]. rewrite andb_true_r. unfold with_method. cbn [filter].
  set (x := (seal, (o, st)) : Inp). change (in_seal x) with seal.
  unfold bknown, known. change (in_ty x) with (oo_ty o). change (use_blank x) with (UBlank seal o).
  assert (Eput : bput x = ItIn o st :: goes D s ch method layer id (UBlank seal o) (oo_ty o) st) by reflexivity. unfold goes in Eput.
  destruct (output_for D s ch (UBlank seal o) method layer id (oo_ty o)) as [out|e|] eqn:Eo.
  2-3: split; [intros E; discriminate|intros (E & _); discriminate].
  cbn [rbind].
  assert (Hsplit : forall b b', t_run X b (map call_of (flat_map bput [x])) = Ok b' <->
            (let! b1 := co_builder (t_call X b (TInput o st)) in co_builder (t_call X b1 (TOwnedRaw (oo_ty o) out st))) = Ok b').
  { intros b b'. cbn [flat_map]. rewrite app_nil_r, Eput. cbn [map call_of t_run]. destruct (t_call X b (TInput o st)) as [b1| |]; cbn [co_builder rmap_err rbind]; try (split; discriminate).
    destruct (t_call X b1 (TOwnedRaw (oo_ty o) out st)); cbn; split; congruence. }
  destruct w as [w1 w2], w' as [w1' w2']. cbn [fst snd]. destruct (os_method seal).
  - change (keqb OpretFirst TapretFirst) with false. change (keqb OpretFirst OpretFirst) with true. cbn [flat_map map t_run]. cbv iota. split.
    + intros E. apply rbind_ok in E as (b & Eb & E). injection E as <- <-. split; [reflexivity|]. split; [reflexivity|]. apply Hsplit. exact Eb.
    + intros (_ & E1 & E2). injection E1 as <-. apply Hsplit in E2. rewrite E2. reflexivity.
  - change (keqb TapretFirst TapretFirst) with true. change (keqb TapretFirst OpretFirst) with false. cbv iota. split.
    + intros E. apply rbind_ok in E as (b & Eb & E). injection E as <- <-. split; [reflexivity|]. split; [|reflexivity]. apply Hsplit. exact Eb.
    + intros (_ & E1 & E2). cbn in E2. injection E2 as <-. apply Hsplit in E1. rewrite E1. reflexivity.
Qed.
Lemma blanked_app w l l' w' : blanked w (l ++ l') w' <-> exists w1, blanked w l w1 /\ blanked w1 l' w'.
Proof.
  unfold blanked. rewrite forallb_app, !with_method_app, !flat_map_app, !map_app, !t_run_app. split.
  - intros (K & Hm & Ha). apply andb_true_iff in K as [K1 K2]. apply rbind_ok in Hm as (bm & Hm1 & Hm2). apply rbind_ok in Ha as (ba & Ha1 & Ha2).
    exists (bm, ba). cbn. auto 10.
  - intros (w1 & (K1 & Hm1 & Ha1) & (K2 & Hm2 & Ha2)). rewrite K1, K2, Hm1, Ha1. cbn. auto.
Qed.
Lemma blanks_iff l : forall w w', rfold (blank_spend D s ch X method layer id) w l = Ok w' <-> blanked w l w'.
Proof.
  induction l as [|x l IH]; intros w w'.
  - unfold blanked. cbn. destruct w, w'. cbn. split; [intros E; injection E as -> ->; auto|intros (_ & E1 & E2); congruence].
  - cbn [rfold]. change (x :: l) with ([x] ++ l). rewrite blanked_app. split.
    + intros E. apply rbind_ok in E as (w1 & E1 & E). exists w1. split; [apply blank_spend_iff; exact E1|apply IH; exact E].
    + intros (w1 & E1 & E). apply blank_spend_iff in E1. rewrite E1. apply IH. exact E.
Qed.

Lemma bput_movable l : Forall movable (flat_map bput l).
Proof.
  apply Forall_forall. intros i Hi. apply in_flat_map in Hi as (x & _ & Hi). unfold bput, goes in Hi. destruct Hi as [<-|Hi]; [exact Logic.I|].
  destruct (output_for _ _ _ _ _ _ _ _); [|destruct Hi..]. destruct Hi as [<-|[]]. exact Logic.I.
Qed.
Lemma bput_ins l : map fst (ins (flat_map bput l)) = map in_out l.
Proof.
  induction l as [|x l IH]; [reflexivity|]. cbn [flat_map map]. rewrite ins_app', map_app, IH. unfold bput, goes.
  destruct (output_for _ _ _ _ _ _ _ _); reflexivity.
Qed.
Lemma bput_owned l : forallb bknown l = true -> Forall2 (back D s ch method layer id) l (owned (flat_map bput l)).
Proof.
  induction l as [|x l IH]; [constructor|]. cbn [forallb]. intros K. apply andb_true_iff in K as [K1 K]. cbn [flat_map]. rewrite owned_app'.
  unfold bput, goes, bknown, known in *. destruct (output_for D s ch (use_blank x) method layer id (in_ty x)) as [out| |] eqn:Eo; try discriminate. cbn.
  constructor; [|exact (IH K)]. split; [reflexivity|]. split; [|reflexivity]. apply output_for_ok in Eo. exact Eo.
Qed.
Lemma bput_once base l m : ins base = [] -> owned base = [] -> NoDup (map in_out l) -> forallb bknown l = true ->
  separate ch use_blank id (velocity_for D s id) l -> (forall x, In x l -> os_method (in_seal x) = m) -> once (base ++ flat_map bput l).
Proof.
  intros Bi Bo ND K Hsep Hm. unfold once. rewrite ins_app', owned_app', Bi, Bo. cbn [app]. split; [rewrite bput_ins; exact ND|].
  eapply back_nodup; [exact Hsep|exact ND|exact Hm|apply bput_owned; exact K].
Qed.
Lemma forallb_method {A} (f : A -> bool) g l : forallb f l = true -> forallb f (filter g l) = true.
Proof. rewrite !forallb_forall. intros K x Hx. apply filter_In in Hx as [Hx _]. exact (K x Hx). Qed.
Lemma bput_right base m l : owned base = [] -> forallb bknown l = true -> single_rights l -> one_right (base ++ flat_map bput (with_method m l)).
Proof.
  intros Bo K Hs ty seal seal' L L'. apply latest_In in L, L'. rewrite !owned_app', Bo in L, L'. cbn [app] in L, L'.
  pose proof (bput_owned _ (forallb_method _ (fun x => keqb (os_method (in_seal x)) m) l K)) as F. fold (with_method m l) in F.
  assert (Hex : forall se, In (ty, se, RVoid) (owned (flat_map bput (with_method m l))) ->
            exists x, In x (with_method m l) /\ in_state x = RVoid /\ in_ty x = ty /\ output_for D s ch (use_blank x) method layer id ty = Ok se).
  { intros se Hi. clear L L'. induction F as [|x r l1 l2 (M1 & M2 & M3) F IH]; [destruct Hi|].
    destruct Hi as [E|Hi]; [|destruct (IH Hi) as (y & Hy & R); exists y; split; [right; exact Hy|exact R]].
    exists x. subst r. cbn in *. split; [left; reflexivity|]. split; [auto|]. split; [auto|]. apply output_for_ok. rewrite M1. exact M2. }
  destruct (Hex _ L) as (x & Hx & Sx & Tx & Ox). destruct (Hex _ L') as (y & Hy & Sy & Ty & Oy).
  apply In_with_method in Hx as [Hx Mx], Hy as [Hy My]. assert (x = y) by (apply Hs; congruence). subst y. congruence.
Qed.

Lemma blanked_perm b base l l' w' : t_built X id BLANK b base -> ins base = [] -> owned base = [] -> Permutation l l' -> NoDup (map in_out l) ->
  separate ch use_blank id (velocity_for D s id) l -> blanked (b, b) l w' -> blanked (b, b) l' w'.
Proof.
  intros B Bi Bo Hp ND Hsep (K & Hm & Ha). cbn [fst snd] in *.
  assert (Hrun : forall m b', t_run X b (map call_of (flat_map bput (with_method m l))) = Ok b' ->
            t_run X b (map call_of (flat_map bput (with_method m l'))) = Ok b').
  { intros m b' E. pose proof (put_perm X id BLANK b base (flat_map bput (with_method m l)) (flat_map bput (with_method m l'))
      (flat_map_perm _ _ _ (with_method_perm m _ _ Hp)) (bput_movable _)) as Q. rewrite E in Q.
    assert (O : once (base ++ flat_map bput (with_method m l))).
    { apply (bput_once _ _ m); [exact Bi|exact Bo|apply NoDup_map_filter; exact ND|apply forallb_method; exact K| |intros x Hx; apply In_with_method in Hx; apply Hx].
      apply (separate_sub' D s ch id use_blank l); [|exact Hsep]. intros x Hx. apply In_with_method in Hx as [Hx _]. exact Hx. }
    specialize (Q O B). destruct (t_run X b (map call_of (flat_map bput (with_method m l')))); [|contradiction..]. destruct Q as [-> _]. reflexivity. }
  split; [exact (forallb_perm _ _ _ Hp K)|]. split; apply Hrun; assumption.
Qed.
End Blank.

Section All.
Context (H : Hashes) (D : Defs) (P : Pedersen) (wrap : bool) (s : Stock) (ch : Choices) (od od' : Orders) (Ho : orders_ok od) (Ho' : orders_ok od').

Lemma single_rights_perm l l' : Permutation l l' -> single_rights l -> single_rights l'.
Proof. intros Hp Hs x y Hx Hy. apply Hs; apply (Permutation_in _ (Permutation_sym Hp)); assumption. Qed.
Lemma separate_perm u cid l l' : Permutation l l' -> separate ch u cid (velocity_for D s cid) l -> separate ch u cid (velocity_for D s cid) l'.
Proof. intros Hp. apply separate_sub'. intros x. apply (Permutation_in _ (Permutation_sym Hp)). Qed.

Lemma blank_same method layer iface prev id m d : contract_assignments_for (sk_state s) id (map os_outpoint prev) = Ok m -> apart_blank D s ch id prev ->
  blank_for H D P s ch od method layer iface (id, m) = Ok d -> blank_for H D P s ch od' method layer iface (id, m) = Ok d.
Proof.
  intros Em (l & Hsp & Hsep & Hr) E. unfold blank_for in E |- *. apply rbind_ok in E as ([X b] & Eb & E). rewrite Eb in E |- *. cbn [rbind fst snd] in E |- *.
  destruct (blank_builder_ok _ _ _ _ _ _ Eb) as (_ & T & (base & B & _ & Bo & Bi)).
  destruct (caf_ok _ _ _ _ _ Em Hsp) as [W Hp]. destruct Hsp as [ND _].
  pose proof (Permutation_sym (Permutation_trans (listed_perm od id m Ho) Hp)) as Hl. pose proof (Permutation_sym (Permutation_trans (listed_perm od' id m Ho') Hp)) as Hl'.
  apply rbind_ok in E as (w & Ew & E). apply blanks_iff in Ew.
  assert (Ew' : rfold (blank_spend D s ch X method layer id) (b, b) (listed od' id m) = Ok w).
  { apply blanks_iff. eapply (blanked_perm D s ch X method layer id b base (listed od id m)); [exact B|exact Bi|exact Bo| | | |exact Ew].
    - exact (Permutation_trans (Permutation_sym Hl) Hl').
    - exact (NoDup_in_out _ _ Hl ND).
    - exact (separate_perm use_blank id _ _ Hl Hsep). }
  rewrite Ew'. cbn [rbind].
  pose proof (proj1 Ew) as K.
  assert (Hfin : forall me bm, t_run X b (map call_of (flat_map (bput D s ch method layer id) (with_method me (listed od id m)))) = Ok bm ->
            finish H P od bm (outputs_with od id m (of_method me)) = finish H P od' bm (outputs_with od' id m (of_method me))).
  { intros me bm Er. destruct (put_ok X id BLANK _ (bput_movable D s ch method layer id _) b base bm B Er) as [_ Bm].
    eapply (finish_same H P od od' X id BLANK bm); [exact Ho|exact Ho'|exact Bm| |apply outputs_both; assumption|apply (outputs_method od id m (of_method me)); reflexivity].
    apply bput_right; [exact Bo|exact K|]. exact (single_rights_perm _ _ Hl Hr). }
  destruct Ew as (_ & E1 & E2). cbn [fst snd] in E1, E2. pose proof (Hfin TapretFirst _ E1) as F1. pose proof (Hfin OpretFirst _ E2) as F2.
  cbn [rfold] in E |- *. rewrite <- F1, <- F2. exact E.
Qed.

Lemma blanks_can method layer iface ms : forall acc ds, Forall2 (fun p d => blank_for H D P s ch od' method layer iface p = Ok d) ms ds ->
  len (acc ++ ds) <= U24MAX - 1 ->
  rfold (fun acc p => let! d := blank_for H D P s ch od' method layer iface p in ok_or TooManyBlanks (cpush_back (U24MAX - 1) d acc)) acc ms = Ok (acc ++ ds).
Proof.
  induction ms as [|p ms IH]; intros acc ds F Hl; inversion F as [|? d ? ds' Ed F']; subst; cbn [rfold]; [rewrite app_nil_r; reflexivity|].
  rewrite Ed. cbn [rbind]. unfold cpush_back. replace (acc ++ d :: ds') with ((acc ++ [d]) ++ ds') in * by (rewrite <- app_assoc; reflexivity).
  rewrite (proj2 (N.ltb_lt _ _)) by (unfold len in *; rewrite !app_length in Hl; cbn [length] in Hl; lia). cbn [ok_or rbind]. apply IH; assumption.
Qed.
Lemma blanks_len method layer iface ms : forall acc r,
  rfold (fun acc p => let! d := blank_for H D P s ch od method layer iface p in ok_or TooManyBlanks (cpush_back (U24MAX - 1) d acc)) acc ms = Ok r ->
  len acc <= U24MAX - 1 -> len r <= U24MAX - 1.
Proof.
  induction ms as [|p ms IH]; intros acc r E Hl; cbn [rfold] in E; [injection E as <-; exact Hl|].
  apply rbind_ok in E as (acc1 & E1 & E). apply (IH _ _ E). apply rbind_ok in E1 as (d & _ & E1). apply ok_or_ok in E1. unfold cpush_back in E1.
  destruct (N.ltb_spec (len acc) (U24MAX - 1)) as [Hlt|]; [|discriminate]. injection E1 as <-. rewrite len_snoc. lia.
Qed.
Lemma Forall2_perm {A B} (R : A -> B -> Prop) l l' : Permutation l l' -> forall k, Forall2 R l k -> exists k', Permutation k k' /\ Forall2 R l' k'.
Proof. intros Hp k F. destruct (Permutation_Forall2 Hp F) as (k' & A1 & A2). exists k'. auto. Qed.

Lemma blanks_same method layer iface prev cid spm r : spent_state s cid (map os_outpoint prev) = Ok spm ->
  (forall id, In id (mkeys spm) -> apart_blank D s ch id prev) ->
  blanks_for H D P s ch od method layer iface (or_contracts od spm) = Ok r ->
  exists r', blanks_for H D P s ch od' method layer iface (or_contracts od' spm) = Ok r' /\ Permutation r r'.
Proof.
  intros Es Ha E. unfold blanks_for in E |- *. destruct (blanks_for_ok _ _ _ _ _ _ _ _ _ _ _ _ E) as (ds & -> & F). pose proof (blanks_len _ _ _ _ _ _ E) as Hl. clear E.
  destruct (spent_state_ok _ _ _ _ Es) as [Ss _]. pose proof Ho as (_ & _ & Hc & _). pose proof Ho' as (_ & _ & Hc' & _).
  assert (F' : Forall2 (fun p d => blank_for H D P s ch od' method layer iface p = Ok d) (or_contracts od spm) ds).
  { assert (Hin : forall p, In p (or_contracts od spm) -> In p spm) by (intros p; apply Permutation_in; apply Hc).
    clear Hl. revert Hin. induction F as [|[id m] d ms ds Ed F IH]; intros Hin; constructor; [|apply IH; intros p Hp; apply Hin; right; exact Hp].
    pose proof (Hin _ (or_introl eq_refl)) as Hi. eapply blank_same; [|apply Ha|exact Ed].
    - eapply spent_state_get; [exact Es|]. apply In_mget; [exact Ss|exact Hi].
    - change id with (fst (id, m)). apply in_map. exact Hi. }
  destruct (Forall2_perm _ _ _ (Permutation_trans (Hc spm) (Permutation_sym (Hc' spm))) _ F') as (ds' & Hp & F2).
  exists ds'. split; [|exact Hp]. apply (blanks_can method layer iface (or_contracts od' spm) []); [exact F2|]. cbn [app] in *.
  assert (El : len ds' = len ds) by (unfold len; rewrite (Permutation_length Hp); reflexivity). rewrite El. apply Hl. unfold U24MAX, len. cbn. lia.
Qed.

Lemma compose_same inv prev method vout priority now batch :
  (forall cid tt a, asks D s inv cid tt a -> apart_main D s ch cid a prev) ->
  (forall cid id, InvoiceModel.contract inv = Some cid -> In id (contracts_assigning (sk_index s) (sfrom (map os_outpoint prev))) -> id <> cid -> apart_blank D s ch id prev) ->
  compose H D P wrap s ch od inv prev method vout priority now = Ok batch ->
  exists batch', compose H D P wrap s ch od' inv prev method vout priority now = Ok batch' /\ same_batch batch batch'.
Proof.
  intros Hmain Hblank E. pose proof E as E0. apply compose_ok in E0. cbv zeta in E0. unfold compose in E |- *. cbv zeta in E |- *. set (layer := layer1 (chain_network (beneficiary inv))) in *.
  destruct (match expiry inv with Some t => (t <? now)%Z | None => false end) eqn:Ex; [discriminate|].
  apply rbind_ok in E as (cid & Ec & E). rewrite Ec. apply ok_or_ok in Ec. apply rbind_ok in E as (iface & Ei & E). rewrite Ei. cbn [rbind].
  apply rbind_ok in E as ([X b] & Eb & E). rewrite Eb in E |- *. cbn [rbind fst snd] in E |- *. apply rbind_ok in E as (a & Ea & E). rewrite Ea. cbn [rbind].
  cbn [rbind fst snd] in E. apply rbind_ok in E as (ben & Eben & E). rewrite Eben. cbn [rbind]. apply rbind_ok in E as (m & Em & E). rewrite Em. cbn [rbind].
  apply rbind_ok in E as (w & Ew & E). apply rbind_ok in E as (w1 & Ew1 & E). apply rbind_ok in E as (spm & Esp & E). apply rbind_ok in E as (blanks & Ebl & E).
  assert (Hask : exists tt, asks D s inv cid tt a /\ side X cid tt b (match stash_genesis (sk_stash s) cid with Ok g => df_tags D g | _ => [] end) [] []).
  { destruct (transition_builder_ok _ _ _ _ _ _ _ Eb) as (g & si & i & im & tt & B1 & B2 & B3 & B4 & B5 & B6 & B7 & B8 & B9 & B10).
    exists tt. rewrite B1. split; [|exact B10]. apply rmap_ok in Ei as (iface0 & Ei & ->). apply ok_or_ok in Ei. exists iface0, g, si, i, im, X. repeat (split; [assumption|]). split.
    - destruct (InvoiceModel.operation inv); exact B8.
    - eapply payment_type_ok; [exact B9|reflexivity|exact Ea]. }
  clear E0. destruct Hask as (tt & Hask & (base & B & _ & Bo & Bi)). destruct (Hmain _ _ _ Hask) as (l & Hsp & Hsep & Hr).
  destruct (caf_ok _ _ _ _ _ Em Hsp) as [W Hp]. destruct Hsp as [ND _].
  pose proof (Permutation_sym (Permutation_trans (listed_perm od cid m Ho) Hp)) as Hl. pose proof (Permutation_sym (Permutation_trans (listed_perm od' cid m Ho') Hp)) as Hl'.
  apply spends_iff in Ew. set (w0 := {| wk_main := b; wk_alt := b; wk_sum := 0; wk_sum_alt := 0; wk_data := []; wk_data_main := true |}) in *.
  destruct (spends_perm D wrap s ch X method layer cid a _ tt b base (listed od cid m) (listed od' cid m) w0 w B Bi Bo eq_refl eq_refl eq_refl eq_refl
    (Permutation_trans (Permutation_sym Hl) Hl') (NoDup_in_out _ _ Hl ND) (separate_perm use_main cid _ _ (other_types_perm a _ _ Hl) Hsep) Ew) as (w' & Ew' & Eq).
  assert (G : grown X cid tt (base ++ flat_map (put_of D s ch method layer cid a) (with_method method (listed od cid m)))
                   (base ++ flat_map (put_of D s ch method layer cid a) (with_method (other method) (listed od cid m))) w).
  { destruct Ew as (_ & E1 & E2 & _). exists [], []. rewrite !app_nil_r. split; [|split; [intros ? ? []|split; [|intros ? ? []]]].
    - exact (proj2 (put_ok X cid tt _ (put_movable D s ch method layer cid a _) b base _ B E1)).
    - exact (proj2 (put_ok X cid tt _ (put_movable D s ch method layer cid a _) b base _ B E2)). }
  pose proof (proj1 Ew) as K. apply spends_iff in Ew'. rewrite Ew'. cbn [rbind].
  destruct (pay_eqv D wrap s ch X method layer cid a ben _ _ _ _ Eq Ew1) as (w1' & Ew1' & M1 & M2). rewrite Ew1', Esp. cbn [rbind].
  destruct (spent_state_ok _ _ _ _ Esp) as [_ Hk].
  destruct (blanks_same _ _ _ _ _ _ _ Esp (fun id Hi => Hblank cid id Ec (proj1 (proj1 (Hk id) Hi)) (proj2 (proj1 (Hk id) Hi))) Ebl) as (blanks' & Ebl' & Hpb).
  rewrite Ebl'. cbn [rbind]. rewrite M1, M2.
  destruct (pay_grown D wrap s ch X method layer cid a tt _ _ ben _ _ _ G Ew1) as (em & ea & Bm & Nm & Ba & Na).
  pose proof (single_rights_perm _ _ (other_types_perm a _ _ Hl) Hr) as Hr'.
  assert (F1 : finish H P od (wk_main w1) (outputs_with od cid m (of_method method)) = finish H P od' (wk_main w1) (outputs_with od' cid m (of_method method))).
  { eapply finish_same; [exact Ho|exact Ho'|exact Bm| |apply outputs_both; assumption|apply (outputs_method od cid m (of_method method)); reflexivity].
    exact (main_right D s ch method layer cid a base method (listed od cid m) em Bo K Hr' Nm). }
  assert (F2 : finish H P od (wk_alt w1) (outputs_with od cid m (fun x => negb (of_method method x))) =
               finish H P od' (wk_alt w1) (outputs_with od' cid m (fun x => negb (of_method method x)))).
  { eapply finish_same; [exact Ho|exact Ho'|exact Ba| |apply outputs_both; assumption|].
    - exact (main_right D s ch method layer cid a base (other method) (listed od cid m) ea Bo K Hr' Na).
    - apply (outputs_method od cid m (fun x => negb (of_method method x)) (other method)). intros x. rewrite other_keqb. reflexivity. }
  set (mi := outputs_with od cid m (of_method method)) in *. set (mi' := outputs_with od' cid m (of_method method)) in *.
  set (ai := outputs_with od cid m _) in *. set (ai' := outputs_with od' cid m (fun x => negb (of_method method x))) in *.
  destruct (has_inputs (wk_main w1)), (has_inputs (wk_alt w1)); cbn [rbind fst snd] in E |- *; try discriminate; rewrite <- ?F1, <- ?F2;
    apply rbind_ok in E as (first & Ef & E); rewrite Ef; cbn [rbind]; try (apply rbind_ok in E as (second & Ese & E); rewrite Ese; cbn [rbind]);
    apply Ok_inj in E; eexists; (split; [reflexivity|]); subst batch; (split; [reflexivity|]); cbn [set_priority ba_blanks]; apply Permutation_map; exact Hpb.
Qed.
End All.
