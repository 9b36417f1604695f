(** * Proofs about builders: the calls *)
From Verif Require Import Base Core IfaceModel BuilderModel BuilderSpec BuilderProofs.
Local Open Scope N_scope.

Record repr_t (X : BuildCtx) (contract tt : N) (b : TrBuilder) (l : list Item) : Prop := {
  rt_op : repr X (tb_builder b) l;
  rt_contract : tb_contract b = contract;
  rt_type : tb_type b = tt;
  rt_nonce : tb_nonce b = nonce_of l;
  rt_inputs : msorted (tb_inputs b) /\ forall o, mget o (tb_inputs b) = latest (ins l) o
}.

Lemma repr_t_new X contract tt : repr_t X contract tt (tb_new contract tt) [].
Proof. split; cbn; [apply repr_new|reflexivity|reflexivity|reflexivity|split; [apply msorted_nil|reflexivity]]. Qed.

(** An item of the operation builder *)
Lemma repr_t_set X contract tt b l ob i : ~ outside i -> repr_t X contract tt b l -> repr X ob (l ++ [i]) ->
  repr_t X contract tt (tb_set b ob) (l ++ [i]).
Proof.
  intros Ho R Rob. split; cbn; [exact Rob|apply R|apply R| |].
  - rewrite (rt_nonce _ _ _ _ _ R). unfold nonce_of. rewrite fold_left_app. destruct i; cbn in *; try reflexivity; tauto.
  - unfold ins. rewrite filter_map_app. destruct i; cbn in *; rewrite ?app_nil_r; try apply (rt_inputs _ _ _ _ _ R); tauto.
Qed.

Lemma default_ok X b name : default_assignment X b = Ok name <-> default_named X (tb_type b) name.
Proof.
  unfold default_assignment, default_named. rewrite rbind_ok. split.
  - intros (op & E1 & H). apply expect_ok in E1. apply rbind_ok in H as (i & E2 & H). apply expect_ok in E2. apply ok_or_ok in H. eauto.
  - intros (op & i & E1 & E2 & E3). exists op. split; [apply expect_ok; exact E1|]. apply rbind_ok. exists i.
    split; [apply expect_ok; exact E2|]. apply ok_or_ok. exact E3.
Qed.

Lemma named_ok {A} X name (k : N -> result BuilderError A) a :
  named X name k = Ok a <-> exists ty, assignment_named X name ty /\ k ty = Ok a.
Proof.
  unfold named, assigns_type, assignment_named. rewrite rbind_ok. split; intros (ty & E & H); exists ty; split; try exact H; apply ok_or_ok in E || apply ok_or_ok; exact E.
Qed.
Lemma tag_raw_ok X b l ty tag : repr X b l -> asset_tag_raw b ty = Ok tag <-> latest (tags l) ty = Some tag.
Proof. intros R. unfold asset_tag_raw. rewrite ok_or_ok, (proj2 (rp_tags _ _ _ R)). reflexivity. Qed.

Lemma add_fungible_state_ok X b l name seal v bl b' : repr X b l ->
  add_fungible_state X b name seal v bl = Ok b' <->
  exists ty tag, assignment_named X name ty /\ latest (tags l) ty = Some tag /\ add_owned_raw X b ty seal (RAmount v bl tag) = Ok b'.
Proof.
  intros R. unfold add_fungible_state. rewrite named_ok. split.
  - intros (ty & En & H). apply rbind_ok in H as (tag & Et & H). pose proof Et as Et'. apply (tag_raw_ok X b l ty tag R) in Et.
    exists ty, tag. split; [exact En|]. split; [exact Et|]. rewrite <- fungible_as_owned; [exact H|]. rewrite (proj2 (rp_tags _ _ _ R)). exact Et.
  - intros (ty & tag & En & Et & H). exists ty. split; [exact En|]. apply rbind_ok. exists tag.
    split; [apply (tag_raw_ok X b l ty tag R); exact Et|]. rewrite fungible_as_owned; [exact H|]. rewrite (proj2 (rp_tags _ _ _ R)). exact Et.
Qed.
Lemma tb_fungible_raw_ok X b l ty seal v bl b' : repr X (tb_builder b) l ->
  tb_add_fungible_raw X b ty seal v bl = Ok b' <->
  exists tag ob, latest (tags l) ty = Some tag /\ add_owned_raw X (tb_builder b) ty seal (RAmount v bl tag) = Ok ob /\ b' = tb_set b ob.
Proof.
  intros R. unfold tb_add_fungible_raw. rewrite rbind_ok. split.
  - intros (tag & Et & H). apply rbind_ok in H as (ob & H & [= <-]). apply (tag_raw_ok X _ l ty tag R) in Et.
    exists tag, ob. split; [exact Et|]. split; [|reflexivity]. rewrite <- fungible_as_owned; [exact H|]. rewrite (proj2 (rp_tags _ _ _ R)). exact Et.
  - intros (tag & ob & Et & H & ->). exists tag. split; [apply (tag_raw_ok X _ l ty tag R); exact Et|]. apply rbind_ok. exists ob. split; [|reflexivity].
    rewrite fungible_as_owned; [exact H|]. rewrite (proj2 (rp_tags _ _ _ R)). exact Et.
Qed.
Lemma tb_fungible_det_ok X b l name seal v bl b' : repr X (tb_builder b) l ->
  tb_add_fungible_det X b name seal v bl = Ok b' <->
  exists ty tag ob, assignment_named X name ty /\ latest (tags l) ty = Some tag /\
    add_owned_raw X (tb_builder b) ty seal (RAmount v bl tag) = Ok ob /\ b' = tb_set b ob.
Proof.
  intros R. unfold tb_add_fungible_det. rewrite rbind_ok. split.
  - intros (ty & En & H). apply ok_or_ok in En. apply rbind_ok in H as (tag & Et & H). apply (tag_raw_ok X _ l ty tag R) in Et.
    apply rbind_ok in H as (ob & H & [= <-]). apply named_ok in H as (ty' & En' & H). unfold assignment_named in En'. unfold assigns_type in En.
    assert (ty' = ty) as -> by congruence. exists ty, tag, ob. split; [exact En'|]. split; [exact Et|]. split; [|reflexivity].
    rewrite <- fungible_as_owned; [exact H|]. rewrite (proj2 (rp_tags _ _ _ R)). exact Et.
  - intros (ty & tag & ob & En & Et & H & ->). exists ty. split; [apply ok_or_ok; exact En|]. apply rbind_ok. exists tag.
    split; [apply (tag_raw_ok X _ l ty tag R); exact Et|]. apply rbind_ok. exists ob. split; [|reflexivity].
    apply named_ok. exists ty. split; [exact En|]. rewrite fungible_as_owned; [exact H|]. rewrite (proj2 (rp_tags _ _ _ R)). exact Et.
Qed.
Lemma tb_owned_raw_ok X b ty seal st b' :
  tb_add_owned_raw X b ty seal st = Ok b' <-> exists ob, add_owned_raw X (tb_builder b) ty seal st = Ok ob /\ b' = tb_set b ob.
Proof.
  unfold tb_add_owned_raw. rewrite rbind_ok. split.
  - intros (u & _ & H). apply rbind_ok in H as (ob & H & [= <-]). eauto.
  - intros (ob & H & ->). exists tt. split; [|apply rbind_ok; eauto].
    destruct st; try reflexivity. unfold add_owned_raw in H. apply rbind_ok in H as (t & Et & H). rewrite Et. cbn.
    destruct (t =? tag); [reflexivity|discriminate].
Qed.
Lemma add_data_ok X b name seal v salt b' :
  add_data X b name seal v salt = Ok b' <->
  exists ty w, v = Some w /\ assignment_named X name ty /\ add_owned_raw X b ty seal (RData w salt) = Ok b'.
Proof.
  unfold add_data. rewrite rbind_ok. split.
  - intros (w & Ev & H). apply ok_or_ok in Ev. apply named_ok in H as (ty & En & H). exists ty, w. auto.
  - intros (ty & w & -> & En & H). exists w. split; [reflexivity|]. apply named_ok. eauto.
Qed.

(** ** Transitions: a call is accepted exactly when what it asks for is allowed *)
Ltac outside_no := cbn; tauto.

Lemma t_step X contract tt b l c b' : repr_t X contract tt b l -> t_call X b c = Ok b' ->
  exists i, t_asks X tt l c i /\ allowed X l i /\ repr_t X contract tt b' (l ++ [i]).
Proof.
  intros R H. pose proof (rt_op _ _ _ _ _ R) as Ro.
  assert (Own : forall ty s st ob, add_owned_raw X (tb_builder b) ty s st = Ok ob -> b' = tb_set b ob ->
    allowed X l (ItOwn ty s st) /\ repr_t X contract tt b' (l ++ [ItOwn ty s st])).
  { intros ty s st ob Ho ->. destruct (repr_own X _ l ty s st ob Ro Ho) as [Ha Hr]. split; [exact Ha|].
    apply repr_t_set; [outside_no|exact R|exact Hr]. }
  destruct c; cbn [t_call] in H.
  - injection H as <-. eexists. split; [constructor|]. split; [exact I|]. split; cbn.
    + apply repr_skip; [exact I|exact Ro].
    + apply R.
    + apply R.
    + unfold nonce_of. rewrite fold_left_app. reflexivity.
    + unfold ins. rewrite filter_map_app. cbn. rewrite app_nil_r. apply (rt_inputs _ _ _ _ _ R).
  - apply rmap_ok in H as (ob & H & ->). unfold add_asset_tag in H. apply named_ok in H as (ty & En & H).
    apply (repr_tag X _ l ty tag ob Ro) in H as [Ha Hr]. exists (ItTag ty tag). split; [constructor; exact En|]. split; [exact Ha|].
    apply repr_t_set; [outside_no|exact R|exact Hr].
  - apply rmap_ok in H as (ob & H & ->). apply (repr_tag X _ l ty tag ob Ro) in H as [Ha Hr]. eexists. split; [constructor|]. split; [exact Ha|].
    apply repr_t_set; [outside_no|exact R|exact Hr].
  - apply rmap_ok in H as (ob & H & ->). apply (repr_meta X _ l name v ob Ro) in H as (ty & w & En & -> & Ha & Hr).
    exists (ItMeta ty w). split; [constructor; exact En|]. split; [exact Ha|]. apply repr_t_set; [outside_no|exact R|exact Hr].
  - apply rmap_ok in H as (ob & H & ->). apply (repr_global X _ l name v ob Ro) in H as (ty & w & En & -> & Ha & Hr).
    exists (ItGlobal ty w). split; [constructor; exact En|]. split; [exact Ha|]. apply repr_t_set; [outside_no|exact R|exact Hr].
  - unfold add_input in H. apply rbind_ok in H as (m & Em & [= <-]). apply ok_or_ok in Em. apply cinsert_some in Em as [El ->].
    destruct (rt_inputs _ _ _ _ _ R) as [His Hi].
    eexists. split; [constructor|]. split.
    + cbn [allowed]. rewrite <- (latest_len (ins l) (tb_inputs b) His Hi). exact El.
    + split; cbn.
      * apply repr_skip; [exact I|exact Ro].
      * apply R.
      * apply R.
      * rewrite (rt_nonce _ _ _ _ _ R). unfold nonce_of. rewrite fold_left_app. reflexivity.
      * split; [apply minsert_sorted; exact His|]. intros o'. unfold ins. rewrite filter_map_app. cbn. rewrite latest_snoc. cbn [fst snd].
        rewrite mget_insert, (keqb_sym o o'). destruct (keqb o' o); [reflexivity|]. apply Hi.
  - apply rmap_ok in H as (ob & H & E). apply named_ok in H as (ty & En & H). destruct (Own _ _ _ _ H E) as [Ha Hr].
    eexists. split; [constructor; exact En|]. auto.
  - apply tb_owned_raw_ok in H as (ob & H & E). destruct (Own _ _ _ _ H E) as [Ha Hr]. eexists. split; [constructor|]. auto.
  - apply rmap_ok in H as (ob & H & E). apply named_ok in H as (ty & En & H). destruct (Own ty seal RVoid ob H E) as [Ha Hr].
    eexists. split; [constructor; exact En|]. auto.
  - apply rbind_ok in H as (name & Ed & H). apply default_ok in Ed. rewrite (rt_type _ _ _ _ _ R) in Ed.
    apply rmap_ok in H as (ob & H & E). apply (add_fungible_state_ok X _ l) in H as (ty & tag & En & Et & H); [|exact Ro].
    destruct (Own _ _ _ _ H E) as [Ha Hr]. eexists. split; [econstructor; eassumption|]. auto.
  - apply rbind_ok in H as (name & Ed & H). apply default_ok in Ed. rewrite (rt_type _ _ _ _ _ R) in Ed.
    apply (tb_fungible_det_ok X b l) in H as (ty & tag & ob & En & Et & H & E); [|exact Ro].
    destruct (Own _ _ _ _ H E) as [Ha Hr]. eexists. split; [econstructor; eassumption|]. auto.
  - apply rmap_ok in H as (ob & H & E). apply (add_fungible_state_ok X _ l) in H as (ty & tag & En & Et & H); [|exact Ro].
    destruct (Own _ _ _ _ H E) as [Ha Hr]. eexists. split; [econstructor; eassumption|]. auto.
  - apply (tb_fungible_det_ok X b l) in H as (ty & tag & ob & En & Et & H & E); [|exact Ro].
    destruct (Own _ _ _ _ H E) as [Ha Hr]. eexists. split; [econstructor; eassumption|]. auto.
  - apply (tb_fungible_raw_ok X b l) in H as (tag & ob & Et & H & E); [|exact Ro].
    destruct (Own _ _ _ _ H E) as [Ha Hr]. eexists. split; [econstructor; eassumption|]. auto.
  - apply rmap_ok in H as (ob & H & E). apply add_data_ok in H as (ty & w & -> & En & H).
    destruct (Own _ _ _ _ H E) as [Ha Hr]. eexists. split; [econstructor; eassumption|]. auto.
  - apply rmap_ok in H as (ob & H & E). apply named_ok in H as (ty & En & H). destruct (Own ty seal (RData v salt) ob H E) as [Ha Hr].
    eexists. split; [constructor; exact En|]. auto.
  - unfold tb_add_data_raw in H. apply rbind_ok in H as (ob & H & E). injection E as E. symmetry in E.
    destruct (Own ty seal (RData v salt) ob H E) as [Ha Hr]. eexists. split; [constructor|]. auto.
  - apply rbind_ok in H as (name & Ed & H). apply default_ok in Ed. rewrite (rt_type _ _ _ _ _ R) in Ed.
    apply rmap_ok in H as (ob & H & E). apply add_data_ok in H as (ty & w & -> & En & H).
    destruct (Own _ _ _ _ H E) as [Ha Hr]. eexists. split; [econstructor; eassumption|]. auto.
  - apply rmap_ok in H as (ob & H & E). apply named_ok in H as (ty & En & H). destruct (Own ty seal (RAttach file random) ob H E) as [Ha Hr].
    eexists. split; [constructor; exact En|]. auto.
  - apply rmap_ok in H as (ob & H & E). apply named_ok in H as (ty & En & H). destruct (Own ty seal (RAttach file salt) ob H E) as [Ha Hr].
    eexists. split; [constructor; exact En|]. auto.
Qed.

Lemma t_can X contract tt b l c i : repr_t X contract tt b l -> t_asks X tt l c i -> allowed X l i -> exists b', t_call X b c = Ok b'.
Proof.
  intros R Hask Ha. pose proof (rt_op _ _ _ _ _ R) as Ro.
  assert (Own : forall ty s st, allowed X l (ItOwn ty s st) -> exists ob, add_owned_raw X (tb_builder b) ty s st = Ok ob).
  { intros ty s st H. eapply repr_own_can; [exact Ro|exact H]. }
  pose proof (rt_type _ _ _ _ _ R) as Ety.
  destruct Hask; cbn [t_call].
  - eauto.
  - destruct (repr_tag_can X _ l ty tag Ro Ha) as [ob Ho]. exists (tb_set b ob). apply rmap_ok. exists ob. split; [|reflexivity].
    apply named_ok. eauto.
  - destruct (repr_tag_can X _ l ty tag Ro Ha) as [ob Ho]. rewrite Ho. cbn. eauto.
  - destruct (repr_meta_can X _ l name ty v Ro H Ha) as [ob Ho]. rewrite Ho. cbn. eauto.
  - destruct (repr_global_can X _ l name ty v Ro H Ha) as [ob Ho]. rewrite Ho. cbn. eauto.
  - destruct (rt_inputs _ _ _ _ _ R) as [His Hi]. cbn [allowed] in Ha. rewrite <- (latest_len (ins l) (tb_inputs b) His Hi) in Ha.
    unfold add_input, cinsert, U8MAX. apply N.ltb_lt in Ha. rewrite Ha. cbn. eauto.
  - destruct (Own _ _ _ Ha) as [ob Ho]. exists (tb_set b ob). apply rmap_ok. exists ob. split; [|reflexivity]. apply named_ok. eauto.
  - destruct (Own _ _ _ Ha) as [ob Ho]. exists (tb_set b ob). apply tb_owned_raw_ok. eauto.
  - destruct (Own _ _ _ Ha) as [ob Ho]. exists (tb_set b ob). apply rmap_ok. exists ob. split; [|reflexivity]. apply named_ok. eauto.
  - destruct (Own _ _ _ Ha) as [ob Ho]. exists (tb_set b ob). apply rmap_ok. exists ob. split; [|reflexivity].
    apply (add_fungible_state_ok X _ l); [exact Ro|]. eauto.
  - destruct (Own _ _ _ Ha) as [ob Ho]. exists (tb_set b ob). apply (tb_fungible_det_ok X b l); [exact Ro|]. eauto 8.
  - destruct (Own _ _ _ Ha) as [ob Ho]. exists (tb_set b ob). apply (tb_fungible_raw_ok X b l); [exact Ro|]. eauto.
  - destruct (Own _ _ _ Ha) as [ob Ho]. exists (tb_set b ob). apply rbind_ok. exists name. split; [apply default_ok; rewrite Ety; assumption|].
    apply rmap_ok. exists ob. split; [|reflexivity]. apply (add_fungible_state_ok X _ l); [exact Ro|]. eauto.
  - destruct (Own _ _ _ Ha) as [ob Ho]. exists (tb_set b ob). apply rbind_ok. exists name. split; [apply default_ok; rewrite Ety; assumption|].
    apply (tb_fungible_det_ok X b l); [exact Ro|]. eauto 8.
  - destruct (Own _ _ _ Ha) as [ob Ho]. exists (tb_set b ob). apply rmap_ok. exists ob. split; [|reflexivity]. apply add_data_ok. eauto.
  - destruct (Own _ _ _ Ha) as [ob Ho]. exists (tb_set b ob). apply rmap_ok. exists ob. split; [|reflexivity]. apply named_ok. eauto.
  - destruct (Own _ _ _ Ha) as [ob Ho]. exists (tb_set b ob). unfold tb_add_data_raw. apply rbind_ok. exists ob. split; [exact Ho|reflexivity].
  - destruct (Own _ _ _ Ha) as [ob Ho]. exists (tb_set b ob). apply rbind_ok. exists name. split; [apply default_ok; rewrite Ety; assumption|].
    apply rmap_ok. exists ob. split; [|reflexivity]. apply add_data_ok. eauto.
  - destruct (Own _ _ _ Ha) as [ob Ho]. exists (tb_set b ob). apply rmap_ok. exists ob. split; [|reflexivity]. apply named_ok. eauto.
  - destruct (Own _ _ _ Ha) as [ob Ho]. exists (tb_set b ob). apply rmap_ok. exists ob. split; [|reflexivity]. apply named_ok. eauto.
Qed.

Lemma default_fun X tt a b : default_named X tt a -> default_named X tt b -> a = b.
Proof. intros (o & i & H1 & H2 & H3) (o' & i' & H1' & H2' & H3'). congruence. Qed.

Lemma t_asks_fun X tt l c i j : t_asks X tt l c i -> t_asks X tt l c j -> i = j.
Proof.
  intros H1 H2. unfold assignment_named in *.
  destruct H1; inversion H2; subst; try reflexivity; unfold assignment_named in *;
    try match goal with H : default_named _ _ ?a, H' : default_named _ _ ?b |- _ => rewrite (default_fun _ _ _ _ H H') in * end;
    congruence.
Qed.

Lemma t_built_repr X contract tt b l : t_built X contract tt b l -> repr_t X contract tt b l.
Proof.
  induction 1 as [|b l c b' i Hb IH Hc Hask]; [apply repr_t_new|].
  destruct (t_step X contract tt b l c b' IH Hc) as (j & Hj & _ & R). rewrite (t_asks_fun X tt l c i j Hask Hj). exact R.
Qed.

(** ** Contracts *)
Record repr_c (X : BuildCtx) (issuer : N) (b : CtBuilder) (l : list Item) : Prop := {
  rc_op : repr X (cb_builder b) l;
  rc_issuer : cb_issuer b = issuer;
  rc_testnet : cb_testnet b = true <-> ~ In ItMainnet l;
  rc_liquid : cb_liquid b = true <-> In ItLiquid l
}.

Lemma repr_c_new X issuer : repr_c X issuer (cb_new issuer) [].
Proof. split; cbn; [apply repr_new|reflexivity|tauto|]. split; [discriminate|tauto]. Qed.

Lemma repr_c_set X issuer b l ob i : ~ outside i -> repr_c X issuer b l -> repr X ob (l ++ [i]) -> repr_c X issuer (cb_set b ob) (l ++ [i]).
Proof.
  intros Ho R Rob. split; cbn; [exact Rob|apply R| |].
  - rewrite (rc_testnet _ _ _ _ R), in_app_iff. cbn. split; [intros H [H2|[H2|[]]]; [tauto|subst; cbn in Ho; tauto]|tauto].
  - rewrite (rc_liquid _ _ _ _ R), in_app_iff. cbn. split; [tauto|]. intros [H|[H|[]]]; [exact H|subst; cbn in Ho; tauto].
Qed.

Lemma layer_iff X issuer b l s : repr_c X issuer b l -> check_layer1 b (bseal_layer X s) = Ok tt <-> layer_ok X l s.
Proof.
  intros R. unfold check_layer1, layer_ok, bseal_layer. destruct (match s with BRevealed s0 => s_layer s0 | BConcealed c => bc_layer X c end); cbn.
  - tauto.
  - rewrite <- (rc_liquid _ _ _ _ R). destruct (cb_liquid b); split; congruence.
Qed.

Lemma init_tag_ok X b l name random r : repr X b l ->
  init_asset_tag X b name random = Ok r <->
  exists ty, assignment_named X name ty /\
    match latest (tags l) ty with
    | Some t => r = (b, t)
    | None => exists b1, add_asset_tag_raw b ty random = Ok b1 /\ r = (b1, random)
    end.
Proof.
  intros R. unfold init_asset_tag. rewrite named_ok. split; intros (ty & En & H); exists ty; (split; [exact En|]);
    rewrite (proj2 (rp_tags _ _ _ R)) in *; destruct (latest (tags l) ty) as [t|] eqn:Et.
  - injection H as <-. reflexivity.
  - apply rbind_ok in H as (m & Em & [= <-]). exists (ob_set_tags b m). split; [|reflexivity].
    unfold add_asset_tag_raw. destruct (mhas ty (ob_fungible b)) eqn:Eh; [|rewrite Em; reflexivity].
    exfalso. assert (In ty (types_of KFungible (owned l))) as Hin.
    { destruct (in_dec key_dec ty (types_of KFungible (owned l))) as [Hy|Hn]; [exact Hy|].
      apply (repr_fungible_has X b l ty R) in Hn. congruence. }
    unfold types_of in Hin. apply in_map_iff in Hin as ([[ty' s] st] & E & Hin). cbn in E. subst ty'.
    apply filter_In in Hin as [Hin Hk]. cbn in Hk. destruct st; try discriminate. apply (rp_tagged _ _ _ R) in Hin. congruence.
  - subst r. reflexivity.
  - destruct H as (b1 & H & ->). unfold add_asset_tag_raw in H. destruct (mhas ty (ob_fungible b)); [discriminate|].
    apply rbind_ok in H as (m & Em & [= <-]). apply rbind_ok. eauto.
Qed.

(** The amount call of a contract builder, with either order of its parts *)
Lemma amount_call_ok X b l name seal v bl tag b' : repr X b l ->
  (let! r := init_asset_tag X b name tag in add_fungible_state X (fst r) name seal v bl) = Ok b' <->
  (let! r := init_asset_tag X b name tag in
   named X name (fun ty => add_fungible_raw X (fst r) ty seal {| rv_value := v; rv_blinding := bl; rv_tag := snd r |})) = Ok b'.
Proof.
  intros R. rewrite !rbind_ok. split; intros ([b1 t] & Hr & H); exists (b1, t); (split; [exact Hr|]); cbn [fst snd] in *.
  - apply (init_tag_ok X b l name tag _ R) in Hr as (ty & En & Hr). unfold add_fungible_state in H. apply named_ok in H as (ty' & En' & H).
    unfold assignment_named in *. assert (ty' = ty) as -> by congruence. apply named_ok. exists ty. split; [exact En|].
    apply rbind_ok in H as (t' & Et & H). replace t with t'; [exact H|].
    destruct (latest (tags l) ty) as [t0|] eqn:E0.
    + injection Hr as -> ->. apply (tag_raw_ok X b l ty t' R) in Et. congruence.
    + destruct Hr as (b2 & H2 & [= -> ->]). unfold add_asset_tag_raw in H2. destruct (mhas ty (ob_fungible b)); [discriminate|].
      apply rbind_ok in H2 as (m & Em & [= <-]). apply ok_or_ok in Em. apply cinsert_some in Em as [_ ->].
      unfold asset_tag_raw in Et. cbn in Et. rewrite mget_insert_eq in Et. cbn in Et. congruence.
  - apply (init_tag_ok X b l name tag _ R) in Hr as (ty & En & Hr). apply named_ok in H as (ty' & En' & H).
    unfold assignment_named in *. assert (ty' = ty) as -> by congruence. unfold add_fungible_state. apply named_ok. exists ty. split; [exact En|].
    apply rbind_ok. exists t. split; [|exact H].
    destruct (latest (tags l) ty) as [t0|] eqn:E0.
    + injection Hr as -> ->. apply (tag_raw_ok X b l ty t0 R). exact E0.
    + destruct Hr as (b2 & H2 & [= -> ->]). unfold add_asset_tag_raw in H2. destruct (mhas ty (ob_fungible b)); [discriminate|].
      apply rbind_ok in H2 as (m & Em & [= <-]). apply ok_or_ok in Em. apply cinsert_some in Em as [_ ->].
      unfold asset_tag_raw. cbn. rewrite mget_insert_eq. reflexivity.
Qed.

Lemma tags_tag l ty tag : latest (tags (l ++ [ItTag ty tag])) ty = Some tag.
Proof. unfold tags. rewrite filter_map_app. cbn. rewrite latest_snoc. cbn. rewrite keqb_refl. reflexivity. Qed.

Lemma amount_step X issuer b l name seal v bl tag ob : repr_c X issuer b l ->
  (let! r := init_asset_tag X (cb_builder b) name tag in add_fungible_state X (fst r) name seal v bl) = Ok ob ->
  exists ty, assignment_named X name ty /\ allowed_all X l (amount_items l ty seal v bl tag) /\
    repr_c X issuer (cb_set b ob) (l ++ amount_items l ty seal v bl tag).
Proof.
  intros R H. pose proof (rc_op _ _ _ _ R) as Ro. apply rbind_ok in H as ([b1 t] & Hr & H). cbn [fst] in H.
  apply (init_tag_ok X _ l name tag _ Ro) in Hr as (ty & En & Hr). exists ty. split; [exact En|]. unfold amount_items.
  destruct (latest (tags l) ty) as [t0|] eqn:E0.
  - injection Hr as -> ->. apply (add_fungible_state_ok X _ l) in H as (ty' & t' & En' & Et & H); [|exact Ro].
    unfold assignment_named in *. assert (ty' = ty) as -> by congruence. assert (t' = t0) as -> by congruence.
    destruct (repr_own X _ l ty seal _ ob Ro H) as [Ha Hrr]. split; [cbn [allowed_all]; auto|].
    apply repr_c_set; [outside_no|exact R|exact Hrr].
  - destruct Hr as (b2 & H2 & [= -> ->]). destruct (repr_tag X _ l ty tag b2 Ro H2) as [Ha2 R2].
    apply (add_fungible_state_ok X b2 (l ++ [ItTag ty tag]) name seal v bl ob R2) in H as (ty' & t' & En' & Et & H).
    unfold assignment_named in *. assert (ty' = ty) as -> by congruence. rewrite tags_tag in Et. injection Et as <-.
    destruct (repr_own X _ _ ty seal _ ob R2 H) as [Ha Hrr]. split; [cbn [allowed_all]; auto|].
    change [ItTag ty tag; ItOwn ty seal (RAmount v bl tag)] with ([ItTag ty tag] ++ [ItOwn ty seal (RAmount v bl tag)]).
    rewrite app_assoc. change (cb_set b ob) with (cb_set (cb_set b b2) ob). apply repr_c_set; [outside_no| |exact Hrr].
    apply repr_c_set; [outside_no|exact R|exact R2].
Qed.
Lemma amount_can X issuer b l name ty seal v bl tag : repr_c X issuer b l -> assignment_named X name ty ->
  allowed_all X l (amount_items l ty seal v bl tag) ->
  exists ob, (let! r := init_asset_tag X (cb_builder b) name tag in add_fungible_state X (fst r) name seal v bl) = Ok ob.
Proof.
  intros R En Ha. pose proof (rc_op _ _ _ _ R) as Ro. unfold amount_items in Ha. destruct (latest (tags l) ty) as [t0|] eqn:E0.
  - destruct Ha as [Ha _]. destruct (repr_own_can X _ l ty seal _ Ro Ha) as [ob Ho]. exists ob. apply rbind_ok. exists (cb_builder b, t0). split.
    + apply (init_tag_ok X _ l name tag _ Ro). exists ty. rewrite E0. auto.
    + apply (add_fungible_state_ok X _ l); [exact Ro|]. eauto.
  - destruct Ha as (Ha & Ha2 & _). destruct (repr_tag_can X _ l ty tag Ro Ha) as [b2 H2]. destruct (repr_tag X _ l ty tag b2 Ro H2) as [_ R2].
    destruct (repr_own_can X _ _ ty seal _ R2 Ha2) as [ob Ho]. exists ob. apply rbind_ok. exists (b2, tag). split.
    + apply (init_tag_ok X _ l name tag _ Ro). exists ty. rewrite E0. eauto.
    + apply (add_fungible_state_ok X _ (l ++ [ItTag ty tag])); [exact R2|]. exists ty, tag. split; [exact En|]. split; [apply tags_tag|exact Ho].
Qed.

Lemma rbind_rmap {E A B C} (r : result E A) (f : A -> result E B) (g : B -> C) :
  (let! x := r in rmap g (f x)) = rmap g (let! x := r in f x).
Proof. destruct r; reflexivity. Qed.

Lemma c_step X issuer b l c b' : repr_c X issuer b l -> c_call X b c = Ok b' ->
  exists new, c_asks X l c new /\ allowed_all X l new /\ repr_c X issuer b' (l ++ new).
Proof.
  intros R H. pose proof (rc_op _ _ _ _ R) as Ro.
  assert (Own : forall ty s st ob, add_owned_raw X (cb_builder b) ty s st = Ok ob -> b' = cb_set b ob ->
    allowed_all X l [ItOwn ty s st] /\ repr_c X issuer b' (l ++ [ItOwn ty s st])).
  { intros ty s st ob Ho ->. destruct (repr_own X _ l ty s st ob Ro Ho) as [Ha Hr]. split; [cbn; auto|].
    apply repr_c_set; [outside_no|exact R|exact Hr]. }
  assert (Lay : forall s A (k : A), check_layer1 b (bseal_layer X s) = Ok tt -> layer_ok X l s).
  { intros s A k Hl. apply (layer_iff X issuer b l s R). exact Hl. }
  destruct c; cbn [c_call] in H.
  - injection H as <-. exists [ItMainnet]. split; [constructor|]. split; [cbn; auto|]. split; cbn.
    + apply repr_skip; [exact I|exact Ro].
    + apply R.
    + rewrite in_app_iff. cbn. split; [discriminate|tauto].
    + rewrite (rc_liquid _ _ _ _ R), in_app_iff. cbn. split; [tauto|]. intros [Hx|[Hx|[]]]; [exact Hx|discriminate].
  - injection H as <-. exists [ItLiquid]. split; [constructor|]. split; [cbn; auto|]. split; cbn.
    + apply repr_skip; [exact I|exact Ro].
    + apply R.
    + rewrite (rc_testnet _ _ _ _ R), in_app_iff. cbn. split; [intros Hx [H2|[H2|[]]]; [tauto|discriminate]|tauto].
    + rewrite in_app_iff. cbn. tauto.
  - apply rmap_ok in H as (ob & H & ->). unfold add_asset_tag in H. apply named_ok in H as (ty & En & H).
    apply (repr_tag X _ l ty tag ob Ro) in H as [Ha Hr]. exists [ItTag ty tag]. split; [constructor; exact En|]. split; [cbn [allowed_all]; auto|].
    apply repr_c_set; [outside_no|exact R|exact Hr].
  - apply rmap_ok in H as (ob & H & ->). apply (repr_meta X _ l name v ob Ro) in H as (ty & w & En & -> & Ha & Hr).
    exists [ItMeta ty w]. split; [constructor; exact En|]. split; [cbn [allowed_all]; auto|]. apply repr_c_set; [outside_no|exact R|exact Hr].
  - apply rmap_ok in H as (ob & H & ->). apply (repr_global X _ l name v ob Ro) in H as (ty & w & En & -> & Ha & Hr).
    exists [ItGlobal ty w]. split; [constructor; exact En|]. split; [cbn [allowed_all]; auto|]. apply repr_c_set; [outside_no|exact R|exact Hr].
  - apply rbind_ok in H as ([] & El & H). apply (layer_iff X issuer b l seal R) in El.
    apply rmap_ok in H as (ob & H & E). apply named_ok in H as (ty & En & H). destruct (Own _ _ _ _ H E) as [Ha Hr].
    eexists. split; [econstructor; eassumption|]. auto.
  - apply rbind_ok in H as ([] & El & H). apply (layer_iff X issuer b l seal R) in El.
    apply rmap_ok in H as (ob & H & E). apply named_ok in H as (ty & En & H). destruct (Own ty seal RVoid ob H E) as [Ha Hr].
    eexists. split; [econstructor; eassumption|]. auto.
  - apply rbind_ok in H as ([] & El & H). apply (layer_iff X issuer b l seal R) in El.
    rewrite rbind_rmap in H. apply rmap_ok in H as (ob & H & ->).
    destruct (amount_step X issuer b l name seal v random tag ob R H) as (ty & En & Ha & Hr).
    exists (amount_items l ty seal v random tag). split; [econstructor; eassumption|]. auto.
  - apply rbind_ok in H as ([] & El & H). apply (layer_iff X issuer b l seal R) in El.
    rewrite rbind_rmap in H. apply rmap_ok in H as (ob & H & ->).
    apply (amount_call_ok X _ l) in H; [|exact Ro].
    destruct (amount_step X issuer b l name seal v blinding tag ob R H) as (ty & En & Ha & Hr).
    exists (amount_items l ty seal v blinding tag). split; [econstructor; eassumption|]. auto.
  - apply rbind_ok in H as ([] & El & H). apply (layer_iff X issuer b l seal R) in El.
    apply rmap_ok in H as (ob & H & E). apply add_data_ok in H as (ty & w & -> & En & H).
    destruct (Own _ _ _ _ H E) as [Ha Hr]. eexists. split; [econstructor; eassumption|]. auto.
  - apply rbind_ok in H as ([] & El & H). apply (layer_iff X issuer b l seal R) in El.
    apply rmap_ok in H as (ob & H & E). apply named_ok in H as (ty & En & H). destruct (Own ty seal (RData v salt) ob H E) as [Ha Hr].
    eexists. split; [econstructor; eassumption|]. auto.
  - apply rbind_ok in H as ([] & El & H). apply (layer_iff X issuer b l seal R) in El.
    apply rmap_ok in H as (ob & H & E). apply named_ok in H as (ty & En & H). destruct (Own ty seal (RAttach file random) ob H E) as [Ha Hr].
    eexists. split; [econstructor; eassumption|]. auto.
  - apply rbind_ok in H as ([] & El & H). apply (layer_iff X issuer b l seal R) in El.
    apply rmap_ok in H as (ob & H & E). apply named_ok in H as (ty & En & H). destruct (Own ty seal (RAttach file salt) ob H E) as [Ha Hr].
    eexists. split; [econstructor; eassumption|]. auto.
Qed.

Lemma c_can X issuer b l c new : repr_c X issuer b l -> c_asks X l c new -> allowed_all X l new -> exists b', c_call X b c = Ok b'.
Proof.
  intros R Hask Ha. pose proof (rc_op _ _ _ _ R) as Ro.
  assert (Own : forall ty s st, allowed_all X l [ItOwn ty s st] -> exists ob, add_owned_raw X (cb_builder b) ty s st = Ok ob).
  { intros ty s st [H _]. eapply repr_own_can; [exact Ro|exact H]. }
  destruct Hask; cbn [c_call]; try match goal with H : layer_ok _ _ _ |- _ => apply (layer_iff X issuer b l _ R) in H; rewrite H; cbn [rbind] end.
  - eauto.
  - eauto.
  - destruct Ha as [Ha _]. destruct (repr_tag_can X _ l ty tag Ro Ha) as [ob Ho]. exists (cb_set b ob). apply rmap_ok. exists ob. split; [|reflexivity].
    apply named_ok. eauto.
  - destruct Ha as [Ha _]. destruct (repr_meta_can X _ l name ty v Ro H Ha) as [ob Ho]. rewrite Ho. cbn. eauto.
  - destruct Ha as [Ha _]. destruct (repr_global_can X _ l name ty v Ro H Ha) as [ob Ho]. rewrite Ho. cbn. eauto.
  - destruct (Own _ _ _ Ha) as [ob Ho]. exists (cb_set b ob). apply rmap_ok. exists ob. split; [|reflexivity]. apply named_ok. eauto.
  - destruct (Own _ _ _ Ha) as [ob Ho]. exists (cb_set b ob). apply rmap_ok. exists ob. split; [|reflexivity]. apply named_ok. eauto.
  - rewrite rbind_rmap. edestruct (amount_can X issuer b l) as [ob Ho]; [exact R|eassumption|exact Ha|]. exists (cb_set b ob). apply rmap_ok. eauto.
  - rewrite rbind_rmap. edestruct (amount_can X issuer b l) as [ob Ho]; [exact R|eassumption|exact Ha|]. apply (amount_call_ok X _ l) in Ho; [|exact Ro].
    exists (cb_set b ob). apply rmap_ok. eauto.
  - destruct (Own _ _ _ Ha) as [ob Ho]. exists (cb_set b ob). apply rmap_ok. exists ob. split; [|reflexivity]. apply add_data_ok. eauto.
  - destruct (Own _ _ _ Ha) as [ob Ho]. exists (cb_set b ob). apply rmap_ok. exists ob. split; [|reflexivity]. apply named_ok. eauto.
  - destruct (Own _ _ _ Ha) as [ob Ho]. exists (cb_set b ob). apply rmap_ok. exists ob. split; [|reflexivity]. apply named_ok. eauto.
  - destruct (Own _ _ _ Ha) as [ob Ho]. exists (cb_set b ob). apply rmap_ok. exists ob. split; [|reflexivity]. apply named_ok. eauto.
Qed.

Lemma c_asks_fun X l c i j : c_asks X l c i -> c_asks X l c j -> i = j.
Proof.
  intros H1 H2. destruct H1; inversion H2; subst; try reflexivity; unfold assignment_named in *;
    try (assert (ty0 = ty) as -> by congruence; reflexivity); congruence.
Qed.

Lemma c_built_repr X issuer b l : c_built X issuer b l -> repr_c X issuer b l.
Proof.
  induction 1 as [|b l c b' i Hb IH Hc Hask]; [apply repr_c_new|].
  destruct (c_step X issuer b l c b' IH Hc) as (j & Hj & _ & R). rewrite (c_asks_fun X l c i j Hask Hj). exact R.
Qed.
