(** * Proofs about the reasons to refuse a payment *)
From Verif Require Import Base Core InvoiceModel SupplModel ContainerModel PIndexModel StateModel StashModel StockModel ConsignModel IfaceModel
  BuilderModel BuilderSpec BuilderProofs BuilderCalls BuilderComplete BuilderProps ComposeModel ComposeSpec ComposeProofs ComposeMain ComposePaid ComposeBlank ComposeErr
  PayableSpec PayableProofs PayableMain PayableBlank.
Local Open Scope N_scope.

Lemma bind_err_inv {A B} (r : result ComposeError A) (k : A -> result ComposeError B) e : rbind r k = Err e -> r = Err e \/ exists x, r = Ok x /\ k x = Err e.
Proof. destruct r; cbn; [eauto|intros E; injection E as ->; auto|discriminate]. Qed.
Lemma rfold_err {A B} (f : B -> A -> result ComposeError B) l : forall b e, rfold f b l = Err e -> exists b' x, In x l /\ f b' x = Err e.
Proof.
  induction l as [|x l IH]; intros b e E; [discriminate|]. cbn [rfold] in E. apply bind_err_inv in E as [E|(b1 & _ & E)].
  - exists b, x. split; [left; reflexivity|exact E].
  - destruct (IH b1 e E) as (b' & y & Hy & Ey). exists b', y. split; [right; exact Hy|exact Ey].
Qed.
Lemma co_builder_err {A} (r : result BuilderError A) e : co_builder r = Err e -> exists e', r = Err e' /\ e = CoBuilder e'.
Proof. destruct r; cbn; try discriminate. intros E. injection E as <-. eauto. Qed.
Lemma ok_or_err' {A} e0 (o : option A) (e : ComposeError) : ok_or e0 o = Err e -> o = None /\ e = e0.
Proof. destruct o; cbn; [discriminate|]. intros E. injection E as <-. auto. Qed.
Lemma wk_call_err X main c w e : wk_call X main c w = Err e -> exists b e', t_call X b c = Err e' /\ e = CoBuilder e'.
Proof. intros E. unfold wk_call in E. apply bind_err_inv in E as [E|(b & _ & E)]; [|discriminate]. apply co_builder_err in E as (e' & E & ->). eauto. Qed.
Lemma add64_err wrap x y e : add64 wrap x y <> Err e.
Proof. unfold add64. destruct (_ <=? _), wrap; discriminate. Qed.
Lemma sub64_err wrap x y e : sub64 wrap x y <> Err e.
Proof. unfold sub64. destruct (_ <=? _), wrap; discriminate. Qed.
Lemma caf_err s cid outs e : contract_assignments_for (sk_state s) cid outs = Err e -> exists e', contract_state (sk_state s) cid = Err e' /\ e = CoState e'.
Proof.
  intros E. unfold contract_assignments_for in E. apply bind_err_inv in E as [E|(c & _ & E)]; [|discriminate]. destruct (contract_state (sk_state s) cid); cbn in E; try discriminate.
  injection E as <-. eauto.
Qed.

(** What is listed is on the outputs *)
Lemma listed_there s od prev id m x : orders_ok od -> contract_assignments_for (sk_state s) id (map os_outpoint prev) = Ok m -> In x (listed od id m) -> there s prev id x.
Proof.
  intros Ho Em Hx. apply (Permutation_in _ (listed_perm od id m Ho)) in Hx. pose proof (caf_wfs _ _ _ _ Em) as W.
  unfold contract_assignments_for in Em. apply rbind_ok in Em as (c & Ec & Em). rewrite co_state_ok in Ec. apply Ok_inj in Em. subst m. fold (all_outs c) in *.
  change (fun m a => if existsb (keqb (os_outpoint (oa_seal a))) (map os_outpoint prev) then put_spending m a else m) with (put_if (map os_outpoint prev)) in *.
  destruct x as [seal [o st]]. apply (In_flat _ _ _ _ W) in Hx.
  assert (W0 : wfs []) by (split; [constructor|discriminate]).
  destruct (put_all (map os_outpoint prev) (all_outs c) [] W0) as (_ & Hh & _).
  destruct (Hh (seal, (o, st)) Hx) as [(lm & G & _)|(a & Ha & E1 & E2 & E3 & E4)]; [discriminate|]. cbn [fst snd] in *. subst. apply In_all_outs in Ha as (k & Ha).
  split; [|exact E4]. exists c, k, (oa_witness a). split; [exact Ec|]. destruct a. exact Ha.
Qed.

Lemma outputs_le s od prev id m f : orders_ok od -> contract_assignments_for (sk_state s) id (map os_outpoint prev) = Ok m ->
  len (sfrom (map os_outpoint (outputs_with od id m f))) <= len prev.
Proof.
  intros Ho Em. pose proof (caf_wfs _ _ _ _ Em) as [Ws Wl]. rewrite <- (len_map os_outpoint prev). apply len_incl; [apply ssorted_NoDup, sfrom_sorted|].
  intros p Hp. apply (proj1 (sfrom_In _ _)) in Hp. apply in_map_iff in Hp as (seal & <- & Hs). apply (Permutation_in _ (outputs_perm od id m f Ho)) in Hs. apply filter_In in Hs as [Hs _].
  apply mget_Some_in in Hs as (lm & G). destruct (Wl _ _ G) as [Wlm Hne]. destruct lm as [|[o st] q]; [contradiction|].
  assert (Hx : In (seal, (o, st)) (listed od id m)).
  { apply (Permutation_in _ (Permutation_sym (listed_perm od id m Ho))). apply (In_flat m seal o st (conj Ws Wl)). exists ((o, st) :: q). split; [exact G|]. cbn. unfold keqb. rewrite cmp_refl. reflexivity. }
  exact (proj2 (listed_there _ _ _ _ _ _ Ho Em Hx)).
Qed.

Lemma finish_err s H P od X cid tt b l prev id m f meth e : orders_ok od -> len (fs_owned (bc_schema X)) <= 255 -> t_built X cid tt b l ->
  contract_assignments_for (sk_state s) id (map os_outpoint prev) = Ok m -> (forall x, f x = keqb (os_method x) meth) ->
  finish H P od b (outputs_with od id m f) = Err e -> e = TooManyInputs /\ 16777215 < len prev.
Proof.
  intros Ho Hsz B Em Hf E. pose proof Ho as (_ & _ & _ & Hr). unfold finish in E. apply bind_err_inv in E as [E|(t & _ & E)].
  - apply co_builder_err in E as (e' & E & _). destruct (proj1 (C44_completes X P (or_rights od) cid tt b l Hr Hsz B) _ E).
  - destruct (transition_info_new H t (outputs_with od id m f)) as [i|e'|] eqn:Ei; try discriminate. injection E as <-. split; [reflexivity|].
    unfold transition_info_new in Ei. destruct (outputs_with od id m f) as [|s0 r] eqn:Eo; [discriminate|].
    destruct (N.ltb_spec U24MAX (len (sfrom (map os_outpoint (s0 :: r))))) as [Hlt|_].
    + pose proof (outputs_le s od prev id m f Ho Em) as Q. rewrite Eo in Q. unfold U24MAX in Hlt. lia.
    + destruct (existsb _ (s0 :: r)) eqn:Ex; [|discriminate]. exfalso. apply existsb_exists in Ex as (s1 & H1 & E1).
      assert (Hm : forall y, In y (s0 :: r) -> os_method y = meth).
      { intros y Hy. rewrite <- Eo in Hy. unfold outputs_with in Hy. apply filter_In in Hy as [_ Hy]. rewrite Hf in Hy. apply keqb_true in Hy. exact Hy. }
      rewrite (Hm s0 (or_introl eq_refl)), (Hm s1 H1), keqb_refl in E1. discriminate.
Qed.

(** ** What is not known *)
Lemma rmap_err_err {E E' A} (f : E -> E') (r : result E A) e : rmap_err f r = Err e -> exists e', r = Err e' /\ e = f e'.
Proof. destruct r; cbn; try discriminate. intros Q. injection Q as <-. eauto. Qed.
Lemma bind_err_any {E A B} (r : result E A) (k : A -> result E B) e : rbind r k = Err e -> r = Err e \/ exists x, r = Ok x /\ k x = Err e.
Proof. destruct r; cbn; [eauto|intros Q; injection Q as ->; auto|discriminate]. Qed.
Lemma rfold_err_any {E A B} (f : B -> A -> result E B) l : forall b e, rfold f b l = Err e -> exists b' x, In x l /\ f b' x = Err e.
Proof.
  induction l as [|x l IH]; intros b e Q; [discriminate|]. cbn [rfold] in Q. apply bind_err_any in Q as [Q|(b1 & _ & Q)].
  - exists b, x. split; [left; reflexivity|exact Q].
  - destruct (IH b1 e Q) as (b' & y & Hy & Ey). exists b', y. split; [right; exact Hy|exact Ey].
Qed.
Lemma contract_schema_err s cid e : contract_schema s cid = Err e -> stash_genesis s cid = Err e \/ exists g, stash_genesis s cid = Ok g /\ stash_schema s (op_ty g) = Err e.
Proof. unfold contract_schema. intros E. apply bind_err_any in E as [E|(g & Eg & E)]; eauto. Qed.
Lemma contract_schema_ok s cid si : contract_schema s cid = Ok si -> exists g, stash_genesis s cid = Ok g /\ stash_schema s (op_ty g) = Ok si.
Proof. unfold contract_schema. intros E. apply rbind_ok in E as (g & Eg & E). eauto. Qed.
Lemma add_tags_err X b tags e : add_tags X b tags <> Err e.
Proof. intros E. unfold add_tags in E. apply rfold_err in E as (b' & p & _ & E). destruct (t_call X b' _); discriminate. Qed.
Lemma rfold_keys {Er K V} `{OrdKey K} (f : K -> result Er V) (l : list K) : forall (m m' : omap K V), msorted m -> rfold (fun m id => let! v := f id in Ok (minsert id v m)) m l = Ok m' ->
  msorted m' /\ forall k, In k (mkeys m') -> In k (mkeys m) \/ In k l.
Proof.
  induction l as [|x l IH]; intros m m' S E; cbn [rfold] in E; [apply Ok_inj in E; subst; auto|]. apply rbind_ok in E as (m1 & E1 & E). apply rbind_ok in E1 as (v & _ & E1). apply Ok_inj in E1. subst m1.
  destruct (IH _ _ (minsert_sorted _ _ _ S) E) as [S' Hk]. split; [exact S'|]. intros k Hi. destruct (Hk k Hi) as [Q|Q]; [|right; right; exact Q].
  apply mget_Some_in in Q as (v' & Q). rewrite mget_insert in Q. destruct (keqb_spec k x) as [->|]; [right; left; reflexivity|left; apply mget_Some_in; eauto].
Qed.
Lemma extract_err any s cid iface g si i e : stash_genesis s cid = Ok g -> stash_schema s (op_ty g) = Ok si -> iface_by_name s iface = Ok i ->
  extract s (si_schema si) [i] = Err e -> unknown any s cid iface (CoExtract e).
Proof.
  intros Hg Hs Hi E. unfold extract in E. apply bind_err_any in E as [E|(types & _ & E)].
  - apply rfold_err_any in E as (m & id & Hid & E). destruct (mget id (st_types s)) eqn:Et; [discriminate|]. injection E as <-. eapply un_type; try eassumption.
    apply in_app_or in Hid as [Hid|Hid]; [left; exact Hid|right]. cbn in Hid. rewrite app_nil_r in Hid. exact Hid.
  - apply bind_err_any in E as [E|(libs & El & E)].
    + apply rfold_err_any in E as (m & id & Hid & E). apply bind_err_any in E as [E|(l & _ & E)]; [|discriminate]. apply rmap_err_err in E as (e' & E & ->). eapply un_lib; eassumption.
    + destruct (N.leb_spec (len libs) U8MAX) as [|Hlt]; [discriminate|]. injection E as <-.
      destruct (rfold_keys (fun id => of_stash (stash_lib s id)) (sch_libs (si_schema si)) [] libs ltac:(constructor) El) as [S Hk].
      apply (un_libs _ _ _ _ g si (mkeys libs) Hg Hs); [apply msorted_NoDup; exact S| |].
      * intros id Hid. destruct (Hk id Hid) as [[]|Q]. exact Q.
      * unfold mkeys. rewrite len_map. exact Hlt.
Qed.
Lemma transition_builder_err D s cid iface name e : transition_builder D s cid iface name = Err e -> unknown false s cid iface e.
Proof.
  intros E. unfold transition_builder in E. apply bind_err_inv in E as [E|(si & Es & E)].
  { apply rmap_err_err in E as (e' & E & ->). apply contract_schema_err in E as [E|(g & Eg & E)]; [apply un_genesis|eapply un_schema]; eassumption. }
  apply co_stash_ok in Es. apply contract_schema_ok in Es as (g & Eg & Es).
  apply bind_err_inv in E as [E|(i & Ei & E)]; [apply rmap_err_err in E as (e' & E & ->); apply un_iface; exact E|]. apply co_stash_ok in Ei.
  apply bind_err_inv in E as [E|(im & Eim & E)]; [apply ok_or_err' in E as [E ->]; eapply un_impl; eassumption|].
  apply bind_err_inv in E as [E|(g' & _ & E)]; [apply rmap_err_err in E as (e' & E & ->); congruence|].
  apply bind_err_inv in E as [E|(ex & _ & E)]; [apply rmap_err_err in E as (e' & E & ->); eapply extract_err; eassumption|]. cbv zeta in E.
  apply bind_err_inv in E as [E|(b & _ & E)]; [destruct (match name with Some n => _ | None => _ end); discriminate|].
  apply bind_err_inv in E as [E|(b' & _ & E)]; [destruct (add_tags_err _ _ _ _ E)|discriminate].
Qed.
Lemma blank_builder_err D s cid iface e : blank_builder D s cid iface = Err e -> unknown true s cid iface e.
Proof.
  intros E. unfold blank_builder in E. apply bind_err_inv in E as [E|(si & Es & E)].
  { apply rmap_err_err in E as (e' & E & ->). apply contract_schema_err in E as [E|(g & Eg & E)]; [apply un_genesis|eapply un_schema]; eassumption. }
  apply co_stash_ok in Es. apply contract_schema_ok in Es as (g & Eg & Es).
  apply bind_err_inv in E as [E|(i & Ei & E)]; [apply rmap_err_err in E as (e' & E & ->); apply un_iface; exact E|]. apply co_stash_ok in Ei.
  destruct (si_impls si) as [|[k im] r] eqn:Esi.
  { injection E as <-. eapply un_impl; eassumption. }
  apply bind_err_inv in E as [E|(g' & _ & E)]; [apply rmap_err_err in E as (e' & E & ->); congruence|].
  apply bind_err_inv in E as [E|(ex & _ & E)]; [apply rmap_err_err in E as (e' & E & ->); eapply extract_err; eassumption|].
  apply bind_err_inv in E as [E|(p & _ & E)].
  - destruct (impl_get si (if_id i)) eqn:Eim; [discriminate|]. apply bind_err_inv in E as [E|(i' & _ & E)]; [|discriminate]. apply rmap_err_err in E as (e' & E & ->). eapply un_other; eauto.
  - cbv zeta in E. apply bind_err_inv in E as [E|(b' & _ & E)]; [destruct (add_tags_err _ _ _ _ E)|discriminate].
Qed.

Section Err.
Context (H : Hashes) (D : Defs) (P : Pedersen) (wrap : bool) (s : Stock) (ch : Choices) (od : Orders).
Context (inv : RgbInvoice) (prev : list OutSeal) (vout : option N) (now : Z).
Notation refusal := (refusal D wrap s ch inv prev vout now).

Lemma out_err u method layer cid ty e : output_for D s ch u method layer cid ty = Err e ->
  e = NoBlankOrChange (velocity_for D s cid ty) ty /\ ch_alloc ch u cid ty (velocity_for D s cid ty) = None.
Proof. intros E. unfold output_for in E. cbv zeta in E. apply bind_err_inv in E as [E|(v & _ & E)]; [|discriminate]. apply ok_or_err' in E as [E ->]. auto. Qed.

Lemma unblind_same st b : unblind (update_blinding st b) = unblind st.
Proof. destruct st; reflexivity. Qed.

Lemma spend_err X b0 method layer cid a lookup w x e : invoice_builder D s inv cid (Ok (X, b0)) -> there s prev cid x ->
  spend D wrap s ch X method layer cid a lookup w x = Err e -> refusal e.
Proof.
  intros Hb Hx E. pose proof Hb as (iface & Hc & _). destruct x as [seal [o st]]. unfold spend in E. apply bind_err_inv in E as [E|(w1 & _ & E)].
  - apply wk_call_err in E as (b & e' & E & ->). eapply rf_item; [exact Hb| |exact E]. left. exists (seal, (o, st)). split; [exact Hx|]. left. reflexivity.
  - destruct (negb (oo_ty o =? a)).
    + apply bind_err_inv in E as [E|(out & _ & E)].
      * apply out_err in E as [-> E]. apply (rf_place_main _ _ _ _ _ _ _ _ cid (seal, (o, st)) Hc Hx). intros Hp. apply Hp. exact E.
      * apply wk_call_err in E as (b & e' & E & ->). eapply rf_item; [exact Hb| |exact E]. left. exists (seal, (o, st)). split; [exact Hx|]. right. eexists _, _. split; [reflexivity|].
        apply unblind_same.
    + destruct st; try discriminate. apply bind_err_inv in E as [E|(sum & _ & E)]; [destruct (add64_err _ _ _ _ E)|].
      apply bind_err_inv in E as [E|(sum' & _ & E)]; [|discriminate]. destruct (of_method method seal); [discriminate|]. destruct (add64_err _ _ _ _ E).
Qed.

Lemma pay_err X b0 method layer cid tt a ben w l e : invoice_builder D s inv cid (Ok (X, b0)) -> asks D s inv cid tt a ->
  (forall l', spent s cid prev l' -> no_wrap wrap a l' -> wk_sum w = total a l' /\ forall v, In v (wk_data w) <-> In v (data_in a l')) ->
  pay D wrap s ch X method layer cid a ben (owned_state inv) w = Err e -> l = tt -> refusal e.
Proof.
  intros Hb Ha Hw E _. destruct (owned_state inv) as [|amt|al|] eqn:Eo; cbn [pay] in E; try discriminate.
  - assert (Hpay : forall c main w e, wk_call X main c w = Err e -> pays a c -> refusal e).
    { intros c main w0 e0 E0 Hp. apply wk_call_err in E0 as (b & e' & E0 & ->). eapply rf_item; [exact Hb| |exact E0]. right. eauto. }
    unfold pay_amount in E. destruct (N.ltb_spec (wk_sum w) amt) as [Hlt|_].
    + injection E as <-. eapply rf_little; [exact Ha|]. intros l' Hsp Hnw. right. rewrite Eo. destruct (Hw l' Hsp Hnw) as [Q _]. lia.
    + apply bind_err_inv in E as [E|(sm & _ & E)]; [destruct (sub64_err _ _ _ _ E)|]. destruct (if sm <? amt then _ else _) as [pm pa].
      assert (Hopt : forall (b : bool) main seal v r w0, (if b then wk_call X main (TFungibleRaw a seal v r) w0 else Ok w0) = Err e -> refusal e).
      { intros [] main seal v r w0 E0; [|discriminate]. apply (Hpay _ _ _ _ E0). exists seal, v, r. auto. }
      apply bind_err_inv in E as [E|(w1 & _ & E)]; [exact (Hopt _ _ _ _ _ _ E)|]. apply bind_err_inv in E as [E|(w2 & _ & E)]; [exact (Hopt _ _ _ _ _ _ E)|].
      apply bind_err_inv in E as [E|(change & _ & E)].
      * apply out_err in E as [-> E]. eapply rf_change; eassumption.
      * apply bind_err_inv in E as [E|(w3 & _ & E)]; [exact (Hopt _ _ _ _ _ _ E)|]. exact (Hopt _ _ _ _ _ _ E).
  - unfold pay_data in E. destruct (existsb (N.eqb (df_alloc D al)) (wk_data w)) eqn:Ex.
    + apply wk_call_err in E as (b & e' & E & ->). eapply rf_item; [exact Hb| |exact E]. right. exists tt, a. split; [exact Ha|]. eexists _, _, _. right. reflexivity.
    + injection E as <-. eapply rf_little; [exact Ha|]. intros l' Hsp Hnw. right. rewrite Eo. destruct (Hw l' Hsp Hnw) as [_ Q]. intros Hi. apply Q in Hi.
      assert (existsb (N.eqb (df_alloc D al)) (wk_data w) = true) by (apply existsb_exists; eexists; split; [exact Hi|apply N.eqb_refl]). congruence.
Qed.

Lemma spent_state_err cid e : InvoiceModel.contract inv = Some cid -> spent_state s cid (map os_outpoint prev) = Err e -> refusal e.
Proof.
  intros Hc E. unfold spent_state in E. apply rfold_err in E as (acc & id & Hi & E). destruct (N.eqb_spec id cid) as [|Ne]; [discriminate|].
  apply bind_err_inv in E as [E|(m & _ & E)]; [|discriminate]. apply caf_err in E as (e' & E & ->). eapply rf_state; [|exact E]. exists cid. split; [exact Hc|]. right. split; assumption.
Qed.

Lemma blank_for_err cid method layer iface id m e : orders_ok od -> schemata_small D -> InvoiceModel.contract inv = Some cid -> InvoiceModel.iface inv = Some iface -> beside s cid prev id ->
  contract_assignments_for (sk_state s) id (map os_outpoint prev) = Ok m ->
  blank_for H D P s ch od method layer (df_name D iface) (id, m) = Err e -> refusal e.
Proof.
  intros Ho Hsz Hc Hi Hbe Em E. unfold blank_for in E. apply bind_err_inv in E as [E|([X b] & Eb & E)]; [apply blank_builder_err in E; eapply rf_beside; eassumption|].
  rewrite Eb in E. cbn [rbind fst snd] in E. destruct (blank_builder_ok _ _ _ _ _ _ Eb) as ((r & Hr) & T & S).
  assert (Hs255 : len (fs_owned (bc_schema X)) <= 255) by (rewrite Hr; apply Hsz).
  apply bind_err_inv in E as [E|(w & Ew & E)].
  - apply rfold_err in E as (w & x & Hx & E). pose proof (listed_there _ _ _ _ _ _ Ho Em Hx) as Hth. destruct x as [seal [o st]]. unfold blank_spend in E.
    apply bind_err_inv in E as [E|(out & _ & E)].
    + apply out_err in E as [-> E]. apply (rf_place_blank _ _ _ _ _ _ _ _ cid id (seal, (o, st)) Hc Hbe Hth). intros Hp. apply Hp. exact E.
    + assert (Hboth : forall b e, (let! b := co_builder (t_call X b (TInput o st)) in co_builder (t_call X b (TOwnedRaw (oo_ty o) out st))) = Err e -> refusal e).
      { intros b1 e1 E1. apply bind_err_inv in E1 as [E1|(b2 & _ & E1)]; apply co_builder_err in E1 as (e' & E1 & ->);
          (eapply rf_item_beside; [exact Hc|exact Hbe|exact Hi|exact Eb|exact Hth| |exact E1]); [left; reflexivity|right; eexists _, _; split; reflexivity]. }
      destruct (os_method seal); apply bind_err_inv in E as [E|(b1 & _ & E)]; try discriminate; exact (Hboth _ _ E).
  - assert (W0 : binv D s ch X method layer id T (b, b) []) by (intros []; exists []; split; try constructor; exact S).
    pose proof (blank_spends_inv D s ch X method layer id T _ _ _ _ W0 Ew) as W1. cbn [app] in W1.
    apply bind_err_inv in E as [E|(infos & _ & E)].
    + apply rfold_err in E as (acc & [b1 outs] & Hin & E). destruct (has_inputs b1); [|discriminate]. apply bind_err_inv in E as [E|(i & _ & E)]; [|discriminate].
      assert (Hq : e = TooManyInputs /\ 16777215 < len prev).
      { destruct Hin as [Eq|[Eq|[]]]; injection Eq as <- <-.
        - destruct (W1 TapretFirst) as (O & _ & l & B & _). eapply (finish_err s H P od); [exact Ho|exact Hs255|exact B|exact Em|reflexivity|exact E].
        - destruct (W1 OpretFirst) as (O & _ & l & B & _). eapply (finish_err s H P od); [exact Ho|exact Hs255|exact B|exact Em|reflexivity|exact E]. }
      destruct Hq as [-> Hq]. apply rf_inputs. exact Hq.
    + unfold di_from_iter in E. destruct infos as [|? [|? [|? ?]]]; discriminate.
Qed.

Lemma blanks_err cid method layer iface ms : forall acc e, orders_ok od -> schemata_small D -> InvoiceModel.contract inv = Some cid -> InvoiceModel.iface inv = Some iface ->
  (forall p, In p ms -> beside s cid prev (fst p) /\ contract_assignments_for (sk_state s) (fst p) (map os_outpoint prev) = Ok (snd p)) ->
  rfold (fun acc p => let! d := blank_for H D P s ch od method layer (df_name D iface) p in ok_or TooManyBlanks (cpush_back (U24MAX - 1) d acc)) acc ms = Err e ->
  refusal e \/ (e = TooManyBlanks /\ U24MAX - 1 < len acc + len ms).
Proof.
  induction ms as [|p ms IH]; intros acc e Ho Hsz Hc Hi Hp E; [discriminate|]. cbn [rfold] in E. apply bind_err_inv in E as [E|(acc1 & E1 & E)].
  - apply bind_err_inv in E as [E|(d & _ & E)].
    + left. destruct p as [id m]. destruct (Hp (id, m) (or_introl eq_refl)) as [Q1 Q2]. eapply blank_for_err; eassumption.
    + right. apply ok_or_err' in E as [E ->]. split; [reflexivity|]. unfold cpush_back in E. destruct (N.ltb_spec (len acc) (U24MAX - 1)); [discriminate|]. unfold len in *. cbn [length]. lia.
  - apply rbind_ok in E1 as (d & _ & E1). apply ok_or_ok in E1. unfold cpush_back in E1. destruct (len acc <? U24MAX - 1); [|discriminate]. injection E1 as <-.
    destruct (IH _ _ Ho Hsz Hc Hi (fun q Hq => Hp q (or_intror Hq)) E) as [R|[-> R]]; [left; exact R|right]. split; [reflexivity|]. unfold len in *. rewrite app_length in R. cbn [length] in *. lia.
Qed.

(** Both builders were made by calls, whatever was summed *)
Definition made2 X cid tt (w : Work) : Prop := (exists l, t_built X cid tt (wk_main w) l) /\ exists l, t_built X cid tt (wk_alt w) l.
Definition kept X cid tt (w w' : Work) : Prop := made2 X cid tt w ->
  made2 X cid tt w' /\ (has_inputs (wk_main w) = true -> has_inputs (wk_main w') = true) /\ (has_inputs (wk_alt w) = true -> has_inputs (wk_alt w') = true).
Lemma kept_refl X cid tt w : kept X cid tt w w.
Proof. intros M. auto. Qed.
Lemma kept_trans X cid tt w1 w2 w3 : kept X cid tt w1 w2 -> kept X cid tt w2 w3 -> kept X cid tt w1 w3.
Proof. intros K1 K2 M. destruct (K1 M) as (M2 & A1 & A2). destruct (K2 M2) as (M3 & B1 & B2). auto. Qed.
Lemma call_inputs X cid tt b l c b' : t_built X cid tt b l -> t_call X b c = Ok b' -> (exists l', t_built X cid tt b' l') /\ (has_inputs b = true -> has_inputs b' = true).
Proof.
  intros B Ec. pose proof (C44_call X cid tt _ _ c B) as Q. rewrite Ec in Q. destruct Q as (i & _ & _ & Q). split; [eauto|].
  assert (S : side X cid tt b (tags l) (owned l) (ins l)) by (exists l; auto). assert (S' : side X cid tt b' (tags (l ++ [i])) (owned (l ++ [i])) (ins (l ++ [i]))) by (eexists; eauto).
  rewrite (side_inputs _ _ _ _ _ _ _ S), (side_inputs _ _ _ _ _ _ _ S'). rewrite ins_app. destruct (ins l); [discriminate|reflexivity].
Qed.
Lemma wk_call_kept X cid tt main c w w' : wk_call X main c w = Ok w' -> kept X cid tt w w'.
Proof.
  intros E [(l1 & M1) (l2 & M2)]. unfold wk_call in E. apply rbind_ok in E as (b & Eb & E). destruct (t_call X (if main then wk_main w else wk_alt w) c) as [b1| |] eqn:Ec; try discriminate.
  apply Ok_inj in Eb. subst b1. apply Ok_inj in E. subst w'.
  destruct main; unfold made2; cbn.
  - destruct (call_inputs _ _ _ _ _ _ _ M1 Ec). eauto 6.
  - destruct (call_inputs _ _ _ _ _ _ _ M2 Ec). eauto 6.
Qed.
Lemma kept_same X cid tt w w' : wk_main w' = wk_main w -> wk_alt w' = wk_alt w -> kept X cid tt w w'.
Proof. intros E1 E2. unfold kept, made2. rewrite E1, E2. auto. Qed.
Lemma spend_kept X cid tt method layer a lookup w x w' : spend D wrap s ch X method layer cid a lookup w x = Ok w' -> kept X cid tt w w'.
Proof.
  intros E. destruct x as [seal [o st]]. unfold spend in E. apply rbind_ok in E as (w1 & E1 & E). apply (wk_call_kept _ cid tt) in E1. destruct (negb _).
  - apply rbind_ok in E as (out & _ & E). exact (kept_trans _ _ _ _ _ _ E1 (wk_call_kept _ _ _ _ _ _ _ E)).
  - eapply kept_trans; [exact E1|]. destruct st; [|apply rbind_ok in E as (x & _ & E); apply rbind_ok in E as (y & _ & E)| |]; apply Ok_inj in E; subst w'; apply kept_same; reflexivity.
Qed.
Lemma spends_kept X cid tt method layer a lookup l : forall w w', rfold (spend D wrap s ch X method layer cid a lookup) w l = Ok w' -> kept X cid tt w w'.
Proof.
  induction l as [|x l IH]; intros w w' E; cbn [rfold] in E; [apply Ok_inj in E; subst; apply kept_refl|]. apply rbind_ok in E as (w1 & E1 & E).
  eapply kept_trans; [eapply spend_kept; exact E1|eapply IH; exact E].
Qed.
Lemma pay_kept X cid tt method layer a ben st w w' : pay D wrap s ch X method layer cid a ben st w = Ok w' -> kept X cid tt w w'.
Proof.
  intros E. destruct st as [|amt|al|]; cbn [pay] in E; try discriminate.
  - unfold pay_amount in E. destruct (_ <? _); [discriminate|]. apply rbind_ok in E as (sm & _ & E). destruct (if sm <? amt then _ else _) as [pm pa].
    assert (Hopt : forall (b : bool) main c w0 w1, (if b then wk_call X main c w0 else Ok w0) = Ok w1 -> kept X cid tt w0 w1).
    { intros [] main c w0 w1 E0; [exact (wk_call_kept _ _ _ _ _ _ _ E0)|apply Ok_inj in E0; subst; apply kept_refl]. }
    apply rbind_ok in E as (w1 & E1 & E). apply Hopt in E1. apply rbind_ok in E as (w2 & E2 & E). apply Hopt in E2. apply rbind_ok in E as (out & _ & E).
    apply rbind_ok in E as (w3 & E3 & E). apply Hopt in E3. apply Hopt in E.
    exact (kept_trans _ _ _ _ _ _ E1 (kept_trans _ _ _ _ _ _ E2 (kept_trans _ _ _ _ _ _ E3 E))).
  - unfold pay_data in E. destruct (existsb _ _); [|discriminate]. exact (wk_call_kept _ _ _ _ _ _ _ E).
Qed.

Theorem compose_err method priority e : orders_ok od -> schemata_small D ->
  compose H D P wrap s ch od inv prev method vout priority now = Err e -> refusal e.
Proof.
  intros Ho Hsz E. unfold compose in E. cbv zeta in E. set (layer := layer1 (chain_network (beneficiary inv))) in *.
  destruct (match expiry inv with Some t => (t <? now)%Z | None => false end) eqn:Ex.
  { injection E as <-. destruct (expiry inv) as [t|] eqn:Et; [|discriminate]. apply Z.ltb_lt in Ex. eapply rf_expired; eassumption. }
  apply bind_err_inv in E as [E|(cid & Ec & E)]; [apply ok_or_err' in E as [E ->]; apply rf_contract; exact E|]. apply ok_or_ok in Ec.
  apply bind_err_inv in E as [E|(iface & Ei & E)].
  { destruct (InvoiceModel.iface inv) eqn:Ei; cbn in E; [discriminate|]. injection E as <-. apply rf_iface. exact Ei. }
  apply rmap_ok in Ei as (iface0 & Ei & ->). apply ok_or_ok in Ei.
  apply bind_err_inv in E as [E|([X b] & Eb & E)]; [apply transition_builder_err in E; eapply rf_builder; eassumption|]. cbn [fst snd] in E.
  assert (Hb : invoice_builder D s inv cid (Ok (X, b))) by (exists iface0; auto).
  apply bind_err_inv in E as [E|(a & Ea & E)].
  { unfold payment_type in E. apply bind_err_inv in E as [E|(name & En & E)].
    - destruct (InvoiceModel.assignment inv) as [n|] eqn:Easn; [discriminate|]. destruct (default_assignment X b) as [nm|e0|] eqn:Ed; try discriminate. injection E as <-.
      eapply rf_default; [exact Hb|exact Easn|]. intros name Hn. apply default_ok in Hn. congruence.
    - apply ok_or_err' in E as [E ->]. eapply rf_named; [exact Hb| |].
      + destruct (InvoiceModel.assignment inv) as [n|]; [congruence|]. destruct (default_assignment X b) as [nm| |] eqn:Ed; try discriminate. apply Ok_inj in En. subst nm. apply default_ok. exact Ed.
      + intros ty Hn. unfold assignment_named in Hn. unfold assigns_type in E. congruence. }
  rewrite Eb in E. cbn [rbind fst snd] in E. apply bind_err_inv in E as [E|(ben & Eben & E)].
  { unfold beneficiary_seal in E. destruct (xcn_into_inner (beneficiary inv)) eqn:Ebn, vout eqn:Ev; try discriminate; injection E as <-.
    - eapply rf_vout; [exact Ebn|congruence].
    - eapply rf_no_vout; [exact Ebn|reflexivity]. }
  destruct (transition_builder_ok _ _ _ _ _ _ _ Eb) as (g & si & i & im & tt & B1 & B2 & B3 & B4 & B5 & B6 & B7 & B8 & B9 & S). set (T := df_tags D g) in *.
  assert (Hs255 : len (fs_owned (bc_schema X)) <= 255) by (rewrite B5; apply Hsz).
  assert (Hasks : asks D s inv cid tt a).
  { exists iface0, g, si, i, im, X. repeat (split; [assumption|]). split.
    - destruct (InvoiceModel.operation inv); exact B8.
    - eapply payment_type_ok; [exact B9|reflexivity|exact Ea]. }
  apply bind_err_inv in E as [E|(m & Em & E)].
  { apply caf_err in E as (e' & E & ->). eapply rf_state; [|exact E]. exists cid. auto. }
  apply bind_err_inv in E as [E|(w & Ew & E)].
  { apply rfold_err in E as (w & x & Hx & E). eapply spend_err; [exact Hb|exact (listed_there _ _ _ _ _ _ Ho Em Hx)|exact E]. }
  set (lookup := match owned_state inv with ISData al => Some (df_alloc D al) | _ => None end) in *.
  assert (W0 := winv_start D s ch X method layer cid a tt lookup T b S).
  assert (Hnow : forall l, spent s cid prev l -> no_wrap wrap a l -> winv D s ch X method layer cid a tt lookup T w (listed od cid m) /\ Permutation (listed od cid m) l).
  { intros l Hsp Hnw. destruct (caf_ok _ _ _ _ _ Em Hsp) as [_ Hp]. pose proof (Permutation_trans (listed_perm od cid m Ho) Hp) as Hl. split; [|exact Hl].
    apply (spends_inv D wrap s ch X method layer cid a tt lookup T (listed od cid m) _ [] _ W0); [|exact Ew]. cbn [app]. destruct Hnw as [Hnw|Hnw]; [left; exact Hnw|right]. rewrite (total_perm a _ _ Hl). exact Hnw. }
  apply bind_err_inv in E as [E|(w' & Ep & E)].
  { eapply pay_err; [exact Hb|exact Hasks| |exact E|reflexivity]. intros l Hsp Hnw. destruct (Hnow l Hsp Hnw) as [W1 Hl]. split.
    - rewrite (wi_sum _ _ _ _ _ _ _ _ _ _ _ _ _ W1). apply total_perm. exact Hl.
    - intros v. rewrite (wi_data _ _ _ _ _ _ _ _ _ _ _ _ _ W1). unfold data_in. rewrite !in_flat_map. split; intros (x & Hx & Hv); exists x; (split; [|exact Hv]);
        [apply (Permutation_in _ Hl)|apply (Permutation_in _ (Permutation_sym Hl))]; exact Hx. }
  apply bind_err_inv in E as [E|(spm & Espm & E)]; [eapply spent_state_err; eassumption|].
  destruct (spent_state_ok _ _ _ _ Espm) as [Ss Hk]. pose proof Ho as (_ & _ & Hoc & _). specialize (Hoc spm).
  apply bind_err_inv in E as [E|(blanks & _ & E)].
  { unfold blanks_for in E. apply (blanks_err cid) in E as [R|[-> R]]; [exact R| |exact Ho|exact Hsz|exact Ec|exact Ei|].
    - apply (rf_blanks _ _ _ _ _ _ _ _ cid (mkeys spm) Ec); [apply msorted_NoDup; exact Ss|intros id Hi; apply Hk; exact Hi|].
      rewrite (len_perm _ _ Hoc) in R. change (len (@nil (Dichotomy TransitionInfo))) with 0 in R. unfold mkeys. rewrite len_map. unfold U24MAX in R. lia.
    - intros [id q] Hq. apply (Permutation_in _ Hoc) in Hq. apply (In_mget _ _ _ Ss) in Hq. cbn [fst snd]. split; [apply Hk; apply mget_Some_in; eauto|exact (spent_state_get _ _ _ _ _ _ Espm Hq)]. }
  destruct (spends_kept X cid tt _ _ _ _ _ _ _ Ew) as (Mw & _); [destruct S as (l0 & B0 & _); split; exists l0; exact B0|].
  destruct (pay_kept X cid tt _ _ _ _ _ _ _ Ep Mw) as (M & K1 & K2).
  apply bind_err_inv in E as [E|([[b1 o1] bo] & Ebs & E)].
  { destruct (has_inputs (wk_main w')) eqn:H1, (has_inputs (wk_alt w')) eqn:H2; try discriminate. injection E as <-. eapply rf_little; [exact Hasks|]. intros l Hsp Hnw. left.
    destruct (Hnow l Hsp Hnw) as [W1 Hl].
    assert (Hin : forall me, with_method me (listed od cid m) = []).
    { intros me. destruct (with_method me (listed od cid m)) as [|x r] eqn:Eq; [reflexivity|exfalso]. destruct (wi_main _ _ _ _ _ _ _ _ _ _ _ _ _ W1) as (O1 & S1 & _). destruct (wi_alt _ _ _ _ _ _ _ _ _ _ _ _ _ W1) as (O2 & S2 & _).
      apply side_inputs in S1, S2.
      assert (Hme : me = method \/ me = other method) by (destruct me, method; auto). destruct Hme; subst me; [rewrite Eq in S1; cbn in S1; apply K1 in S1|rewrite Eq in S2; cbn in S2; apply K2 in S2]; congruence. }
    destruct l as [|x l]; [reflexivity|exfalso]. assert (Hx : In x (listed od cid m)) by (apply (Permutation_in _ (Permutation_sym Hl)); left; reflexivity).
    assert (Hx' : In x (with_method (os_method (in_seal x)) (listed od cid m))) by (apply In_with_method; auto). rewrite Hin in Hx'. destruct Hx'. }
  cbn [fst snd] in E.
  assert (Hfin : forall b l, has_inputs b = has_inputs b -> t_built X cid tt b l -> forall f meth e, (forall x, f x = keqb (os_method x) meth) ->
    finish H P od b (outputs_with od cid m f) = Err e -> refusal e).
  { intros b2 l _ Bt f meth e2 Hf E2. destruct (finish_err s H P od X cid tt b2 l prev cid m f meth e2 Ho Hs255 Bt Em Hf E2) as [-> Q]. apply rf_inputs. exact Q. }
  assert (Hf1 : forall x, of_method method x = keqb (os_method x) method) by reflexivity.
  assert (Hf2 : forall x, negb (of_method method x) = keqb (os_method x) (other method)).
  { intros x. unfold of_method. destruct (os_method x), method; reflexivity. }
  destruct M as [(l1 & M1) (l2 & M2)].
  apply bind_err_inv in E as [E|(first & _ & E)].
  - destruct (has_inputs (wk_main w')), (has_inputs (wk_alt w')); try discriminate Ebs; apply Ok_inj in Ebs; injection Ebs as <- <- <-.
    + exact (Hfin _ _ eq_refl M1 _ _ _ Hf1 E).
    + exact (Hfin _ _ eq_refl M1 _ _ _ Hf1 E).
    + exact (Hfin _ _ eq_refl M2 _ _ _ Hf2 E).
  - apply bind_err_inv in E as [E|(second & _ & E)]; [|discriminate].
    destruct (has_inputs (wk_main w')), (has_inputs (wk_alt w')); try discriminate Ebs; apply Ok_inj in Ebs; injection Ebs as <- <- <-; try discriminate E.
    destruct (finish _ _ _ _ _) as [fi|e0|] eqn:Ef; try discriminate E. injection E as <-. exact (Hfin _ _ eq_refl M2 _ _ _ Hf2 Ef).
Qed.
End Err.
