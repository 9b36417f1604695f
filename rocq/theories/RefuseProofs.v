(** * Proofs about refusals of builders *)
From Verif Require Import Base Core IfaceModel BuilderModel BuilderSpec BuilderProofs BuilderCalls RefuseSpec.
Local Open Scope N_scope.

Lemma rbind_err {E A B} (r : result E A) (f : A -> result E B) e :
  rbind r f = Err e <-> r = Err e \/ exists a, r = Ok a /\ f a = Err e.
Proof.
  destruct r as [a|e0|]; cbn; split; intros H.
  - right. eauto.
  - destruct H as [H|(a0 & [= <-] & H)]; [discriminate|exact H].
  - left. congruence.
  - destruct H as [H|(? & ? & _)]; [congruence|discriminate].
  - discriminate.
  - destruct H as [H|(? & ? & _)]; discriminate.
Qed.
Lemma rmap_err {E A B} (f : A -> B) (r : result E A) e : rmap f r = Err e <-> r = Err e.
Proof. destruct r; cbn; split; congruence. Qed.
Lemma ok_or_err {E A} (e0 : E) (o : option A) e : ok_or e0 o = Err e <-> o = None /\ e = e0.
Proof. destruct o; cbn; split; intros H; try discriminate; try (destruct H; congruence). split; congruence. Qed.
Lemma expect_err {E A} (o : option A) (e : E) : expect o = Err e <-> False.
Proof. destruct o; cbn; split; try discriminate; tauto. Qed.
(** [let! m := ok_or e0 o in Ok (f m)] *)
Lemma ok_or_bind_err {E A B} (e0 : E) (o : option A) (f : A -> B) e :
  (let! m := ok_or e0 o in Ok (f m)) = Err e <-> o = None /\ e = e0.
Proof. destruct o; cbn; split; intros H; try discriminate; try (destruct H; congruence). split; congruence. Qed.
Lemma named_err {A} X name (k : N -> result BuilderError A) e :
  named X name k = Err e <->
  ((forall ty, ~ assignment_named X name ty) /\ e = AssignmentNotFound name) \/ (exists ty, assignment_named X name ty /\ k ty = Err e).
Proof.
  unfold named, assigns_type, assignment_named. rewrite rbind_err, ok_or_err. split.
  - intros [[H ->]|(ty & H & H2)].
    + left. split; [congruence|reflexivity].
    + right. apply ok_or_ok in H. eauto.
  - intros [[H ->]|(ty & H & H2)].
    + left. split; [|reflexivity]. destruct (type_of _ name) as [ty|]; [|reflexivity]. exfalso. exact (H ty eq_refl).
    + right. exists ty. split; [apply ok_or_ok; exact H|exact H2].
Qed.

Lemma cinsert_none {K V} `{OrdKey K} n (k : K) (v : V) m : cinsert n k v m = None <-> n <= len m.
Proof. unfold cinsert. destruct (len m <? n) eqn:E; [apply N.ltb_lt in E|apply N.ltb_ge in E]; split; intros; try discriminate; try lia; auto. Qed.

Section B.
Context (X : BuildCtx) (b : OpBuilder) (l : list Item) (R : repr X b l).

Lemma fungible_in ty : mhas ty (ob_fungible b) = true <-> In ty (types_of KFungible (owned l)).
Proof.
  pose proof (repr_fungible_has X b l ty R) as H. destruct (in_dec key_dec ty (types_of KFungible (owned l))) as [Hy|Hn].
  - split; [auto|]. intros _. destruct (mhas ty (ob_fungible b)); [reflexivity|]. exfalso. apply (proj1 H eq_refl). exact Hy.
  - split; [|contradiction]. intros E. rewrite (proj2 H Hn) in E. discriminate.
Qed.
Lemma tags_full_iff : U8MAX <= len (ob_tags b) <-> tags_full l.
Proof. pose proof (rp_tags _ _ _ R) as [Hts Htg]. unfold tags_full. rewrite (latest_len (tags l) (ob_tags b) Hts Htg). reflexivity. Qed.

Lemma tag_err ty tag e : add_asset_tag_raw b ty tag = Err e <-> wrong X l (ItTag ty tag) e.
Proof.
  unfold add_asset_tag_raw. pose proof (fungible_in ty) as Hf. destruct (mhas ty (ob_fungible b)).
  - pose proof (proj1 Hf eq_refl) as Hin. split.
    + intros [= <-]. constructor. exact Hin.
    + intros W. inversion W; subst; [reflexivity|contradiction].
  - assert (~ In ty (types_of KFungible (owned l))) as Hn by (intros Hi; apply Hf in Hi; discriminate).
    rewrite ok_or_bind_err, cinsert_none, tags_full_iff. split.
    + intros [Hl ->]. apply tag_full; assumption.
    + intros W. inversion W; subst; [contradiction|auto].
Qed.

Lemma meta_err name ty v e : type_of (fm_metadata (bc_impl X)) name = Some ty ->
  add_metadata X b name (Some v) = Err e <-> wrong X l (ItMeta ty v) e.
Proof.
  intros En. unfold add_metadata. cbn [ok_or rbind]. rewrite En. cbn [ok_or rbind].
  destruct (mget ty (fs_meta (bc_schema X))) as [sem|] eqn:Es; cbn [expect rbind].
  2: { split; [discriminate|]. intros W. inversion W; subst; congruence. }
  pose proof (rp_meta _ _ _ R) as [Hts Htg].
  assert (mhas ty (ob_meta b) = false <-> ~ In ty (map fst (metas l))) as Hh by (rewrite <- latest_none, <- Htg; apply mhas_false).
  assert (U8MAX <= len (ob_meta b) <-> metas_full l) as Hl by (unfold metas_full; rewrite (latest_len (metas l) (ob_meta b) Hts Htg); reflexivity).
  destruct (bc_fits X sem v) eqn:Ef.
  - destruct (mhas ty (ob_meta b)).
    + assert (In ty (map fst (metas l))) as Hin.
      { destruct (in_dec key_dec ty (map fst (metas l))) as [Hy|Hn]; [exact Hy|]. apply Hh in Hn. discriminate. }
      split.
      * intros [= <-]. eapply meta_again; eauto.
      * intros W. inversion W; subst; [congruence|reflexivity].
    + rewrite ok_or_bind_err, cinsert_none, Hl. split.
      * intros [Hf ->]. eapply meta_again; eauto.
      * intros W. inversion W; subst; [congruence|]. match goal with H : _ \/ _ |- _ => destruct H as [Hi|Hi] end; [|auto]. exfalso. exact (proj1 Hh eq_refl Hi).
  - split.
    + intros [= <-]. eapply meta_unfit; eassumption.
    + intros W. inversion W; subst; [reflexivity|congruence].
Qed.

Lemma global_err name ty v e : type_of (fm_globals (bc_impl X)) name = Some ty ->
  add_global_state X b name (Some v) = Err e <-> wrong X l (ItGlobal ty v) e.
Proof.
  intros En. unfold add_global_state. cbn [ok_or rbind]. rewrite En. cbn [ok_or rbind].
  destruct (mget ty (fs_globals (bc_schema X))) as [g|] eqn:Es; cbn [expect rbind].
  2: { split; [discriminate|]. intros W. inversion W; subst; congruence. }
  pose proof (rp_global _ _ _ R) as [Hts Htg]. pose proof (global_none (globals l) ty (ob_global b) Htg) as Hnone.
  destruct (bc_fits X (gs_sem g) v) eqn:Ef.
  - rewrite ok_or_bind_err.
    assert (add_state ty v (ob_global b) = None <-> globals_full l ty) as Hf.
    { unfold add_state, globals_full. destruct (mget ty (ob_global b)) as [x|] eqn:Ex.
      - assert (In ty (map fst (globals l))) as Hin.
        { destruct (in_dec key_dec ty (map fst (globals l))) as [Hy|Hno]; [exact Hy|]. apply Hnone in Hno. discriminate. }
        rewrite Htg in Ex. unfold or_none in Ex. destruct (all_for (globals l) ty) as [|y ys] eqn:Ea; [discriminate|]. injection Ex as <-.
        unfold cpush_back. destruct (len (y :: ys) <? U16MAX) eqn:El; cbn [option_map]; [apply N.ltb_lt in El|apply N.ltb_ge in El]; unfold U16MAX in El.
        + split; [discriminate|]. intros [[_ H]|[H _]]; [lia|contradiction].
        + split; [|auto]. intros _. left. auto.
      - rewrite cinsert_none, (global_len (globals l) (ob_global b) Hts Htg). pose proof (proj1 Hnone eq_refl) as Hn.
        unfold U8MAX. split; [auto|]. intros [[H _]|[_ H]]; [contradiction|exact H]. }
    rewrite Hf. split.
    + intros [H ->]. eapply global_full; eassumption.
    + intros W. inversion W; subst; [congruence|auto].
  - split.
    + intros [= <-]. eapply global_unfit; eassumption.
    + intros W. inversion W; subst; [reflexivity|congruence].
Qed.

Lemma slot_full ty s st : put_state ty s st (slot (kind_of st) b) = None <-> owned_full l (kind_of st) ty.
Proof.
  pose proof (put_room _ _ ty s st (rp_slot _ _ _ R (kind_of st))) as H.
  change (map (fun p => fst (fst p)) (of_kind (kind_of st) (owned l))) with (types_of (kind_of st) (owned l)) in H.
  change (filter_map _ (of_kind (kind_of st) (owned l))) with (seals_of (kind_of st) ty (owned l)) in H. unfold owned_full.
  destruct (put_state ty s st (slot (kind_of st) b)) as [m|].
  - assert (Some m <> None) as Hm by discriminate. apply H in Hm as [H1 H2]. split; [discriminate|].
    intros [[Hi Hf]|[Hi Hf]]; [specialize (H1 Hi)|specialize (H2 Hi)]; lia.
  - split; [|auto]. intros _. destruct (in_dec key_dec ty (types_of (kind_of st) (owned l))) as [Hy|Hn].
    + left. split; [exact Hy|]. destruct (N.le_gt_cases 65535 (distinct (seals_of (kind_of st) ty (owned l)))) as [Hl|Hl]; [exact Hl|].
      exfalso. refine (proj2 H _ eq_refl). split; [auto|contradiction].
    + right. split; [exact Hn|]. destruct (N.le_gt_cases 255 (distinct (types_of (kind_of st) (owned l)))) as [Hl|Hl]; [exact Hl|].
      exfalso. refine (proj2 H _ eq_refl). split; [contradiction|auto].
Qed.

Lemma own_put ty s st e (r : option OpBuilder) : tag_right l ty st ->
  (r = None <-> put_state ty s st (slot (kind_of st) b) = None) ->
  forall (fit : OwnedSchema -> bool), (forall sc, fit sc = true <-> kind_fits_schema (kind_of st) sc) ->
  (let! sc := state_schema X ty in if fit sc then ok_or Confinement r else Err (InvalidStateType ty)) = Err e <-> wrong X l (ItOwn ty s st) e.
Proof.
  intros Ht Hr fit Hfit. unfold state_schema.
  assert (NT : forall e0, wrong X l (ItOwn ty s st) e0 ->
    (exists sc, mget ty (fs_owned (bc_schema X)) = Some sc /\ ~ kind_fits_schema (kind_of st) sc /\ e0 = InvalidStateType ty) \/
    (exists sc, mget ty (fs_owned (bc_schema X)) = Some sc /\ kind_fits_schema (kind_of st) sc /\ owned_full l (kind_of st) ty /\ e0 = Confinement)).
  { intros e0 W. inversion W; subst; cbn [tag_right] in Ht.
    - congruence.
    - congruence.
    - left. eauto 6.
    - right. eauto 6. }
  destruct (mget ty (fs_owned (bc_schema X))) as [sc|] eqn:Es; cbn [expect rbind].
  2: { split; [discriminate|]. intros W. apply NT in W as [(? & ? & _)|(? & ? & _)]; discriminate. }
  pose proof (Hfit sc) as Hf. destruct (fit sc).
  - pose proof (proj1 Hf eq_refl) as Hk. rewrite ok_or_err, Hr, slot_full. split.
    + intros [H ->]. eapply own_full; eassumption.
    + intros W. apply NT in W as [(sc' & [= <-] & Hno & _)|(sc' & [= <-] & _ & H & ->)]; [contradiction|auto].
  - assert (~ kind_fits_schema (kind_of st) sc) as Hk by (intros Hk; apply Hf in Hk; discriminate). split.
    + intros [= <-]. eapply own_unfit; eassumption.
    + intros W. apply NT in W as [(sc' & _ & _ & ->)|(sc' & [= <-] & Hk' & _)]; [reflexivity|contradiction].
Qed.

Lemma option_map_none {A B} (f : A -> B) o : option_map f o = None <-> o = None.
Proof. destruct o; cbn; split; congruence. Qed.

Definition fits_b (k : StateKind) (sc : OwnedSchema) : bool :=
  match k, sc with
  | KDeclarative, OsDeclarative | KFungible, OsFungible | KStructured, OsStructured _ | KAttachment, OsAttachment _ => true
  | _, _ => false
  end.
Lemma fits_b_iff k sc : fits_b k sc = true <-> kind_fits_schema k sc.
Proof. destruct k, sc; cbn; split; auto; try discriminate; tauto. Qed.

Lemma own_err ty s st e : add_owned_raw X b ty s st = Err e <-> wrong X l (ItOwn ty s st) e.
Proof.
  unfold add_owned_raw. destruct st as [|v bl tag|v salt|f salt].
  - rewrite <- (own_put ty s RVoid e (option_map (ob_set_rights b)
        match mget ty (ob_rights b) with
        | Some l => option_map (fun l' => minsert ty l' (ob_rights b)) (cpush U16MAX s l)
        | None => cinsert U8MAX ty [s] (ob_rights b)
        end) Logic.I) with (fit := fits_b KDeclarative); [|cbn [slot kind_of]; rewrite (put_rights ty s b _ eq_refl), !option_map_none; reflexivity|apply fits_b_iff].
    unfold add_rights_raw, state_schema. destruct (mget ty (fs_owned (bc_schema X))) as [[]|]; cbn; try reflexivity.
    destruct (match mget ty (ob_rights b) with Some _ => _ | None => _ end); reflexivity.
  - unfold asset_tag_raw. rewrite (proj2 (rp_tags _ _ _ R)). destruct (latest (tags l) ty) as [t|] eqn:Et; cbn [ok_or rbind].
    + destruct (t =? tag) eqn:Ee.
      * apply N.eqb_eq in Ee. subst t.
        rewrite <- (own_put ty s (RAmount v bl tag) e (option_map (ob_set_fungible b)
            (put_state ty s {| rv_value := v; rv_blinding := bl; rv_tag := tag |} (ob_fungible b))) Et) with (fit := fits_b KFungible);
          [| |apply fits_b_iff].
        -- unfold add_fungible_raw, state_schema. destruct (mget ty (fs_owned (bc_schema X))) as [[]|]; cbn; try reflexivity.
           destruct (put_state _ _ _ _); reflexivity.
        -- change (RAmount v bl tag) with (amt {| rv_value := v; rv_blinding := bl; rv_tag := tag |}). cbn [slot kind_of amt].
           change (RAmount v bl tag) with (amt {| rv_value := v; rv_blinding := bl; rv_tag := tag |}).
           rewrite put_state_mmap, !option_map_none. reflexivity.
      * apply N.eqb_neq in Ee. split.
        -- intros [= <-]. eapply amount_other; eassumption.
        -- intros W. inversion W; subst; cbn [tag_right] in *; congruence.
    + split.
      * intros [= <-]. apply amount_untagged. exact Et.
      * intros W. inversion W; subst; cbn [tag_right] in *; congruence.
  - rewrite <- (own_put ty s (RData v salt) e (option_map (ob_set_data b) (put_state ty s (v, salt) (ob_data b))) Logic.I)
      with (fit := fits_b KStructured); [| |apply fits_b_iff].
    + unfold add_data_raw, state_schema. destruct (mget ty (fs_owned (bc_schema X))) as [[]|]; cbn; try reflexivity.
      destruct (put_state _ _ _ _); reflexivity.
    + cbn [slot kind_of]. change (RData v salt) with (dat (v, salt)). rewrite put_state_mmap, !option_map_none. reflexivity.
  - rewrite <- (own_put ty s (RAttach f salt) e (option_map (ob_set_attach b) (put_state ty s (f, salt) (ob_attach b))) Logic.I)
      with (fit := fits_b KAttachment); [| |apply fits_b_iff].
    + unfold add_attachment_raw, state_schema. destruct (mget ty (fs_owned (bc_schema X))) as [[]|]; cbn; try reflexivity.
      destruct (put_state _ _ _ _); reflexivity.
    + cbn [slot kind_of]. change (RAttach f salt) with (att (f, salt)). rewrite put_state_mmap, !option_map_none. reflexivity.
Qed.

Lemma tag_get ty : mget ty (ob_tags b) = latest (tags l) ty.
Proof. apply (rp_tags _ _ _ R). Qed.

(** An amount with the tag which is read *)
Lemma amount_raw_err ty s v bl e :
  (let! tag := asset_tag_raw b ty in add_fungible_raw X b ty s {| rv_value := v; rv_blinding := bl; rv_tag := tag |}) = Err e <->
  (latest (tags l) ty = None /\ e = AssetTagMissed ty) \/
  (exists tag, latest (tags l) ty = Some tag /\ wrong X l (ItOwn ty s (RAmount v bl tag)) e).
Proof.
  rewrite rbind_err. unfold asset_tag_raw at 1. rewrite ok_or_err, tag_get. split.
  - intros [H|(tag & H & H2)]; [left; exact H|right]. apply (tag_raw_ok X b l ty tag R) in H. exists tag. split; [exact H|].
    apply own_err. rewrite <- fungible_as_owned; [exact H2|]. rewrite tag_get. exact H.
  - intros [H|(tag & H & H2)]; [left; exact H|right]. exists tag. split; [apply (tag_raw_ok X b l ty tag R); exact H|].
    rewrite fungible_as_owned; [apply own_err; exact H2|]. rewrite tag_get. exact H.
Qed.
Lemma amount_err name s v bl e :
  add_fungible_state X b name s v bl = Err e <->
  ((forall ty, ~ assignment_named X name ty) /\ e = AssignmentNotFound name) \/
  (exists ty, assignment_named X name ty /\ latest (tags l) ty = None /\ e = AssetTagMissed ty) \/
  (exists ty tag, assignment_named X name ty /\ latest (tags l) ty = Some tag /\ wrong X l (ItOwn ty s (RAmount v bl tag)) e).
Proof.
  unfold add_fungible_state. rewrite named_err. split.
  - intros [H|(ty & En & H)]; [left; exact H|]. apply amount_raw_err in H as [H|(tag & H & H2)]; right; [left|right]; eauto 6.
  - intros [H|[(ty & En & H)|(ty & tag & En & H & H2)]]; [left; exact H|right|right]; exists ty; (split; [exact En|]);
      apply amount_raw_err; [left; exact H|right; eauto].
Qed.
Lemma data_err name s v salt e :
  add_data X b name s v salt = Err e <->
  (v = None /\ e = NotSerializable) \/
  (v <> None /\ (forall ty, ~ assignment_named X name ty) /\ e = AssignmentNotFound name) \/
  (exists ty w, v = Some w /\ assignment_named X name ty /\ wrong X l (ItOwn ty s (RData w salt)) e).
Proof.
  unfold add_data. rewrite rbind_err, ok_or_err. split.
  - intros [H|(w & H & H2)]; [left; exact H|right]. apply ok_or_ok in H. subst v. apply named_err in H2 as [H2|(ty & En & H2)].
    + left. split; [discriminate|exact H2].
    + right. exists ty, w. split; [reflexivity|]. split; [exact En|]. apply own_err. exact H2.
  - intros [H|[(H & H2)|(ty & w & -> & En & H2)]]; [left; exact H|right|right].
    + destruct v as [w|]; [|congruence]. exists w. split; [reflexivity|]. apply named_err. left. exact H2.
    + exists w. split; [reflexivity|]. apply named_err. right. exists ty. split; [exact En|]. apply own_err in H2. exact H2.
Qed.
End B.

Lemma default_err X b e : default_assignment X b = Err e <-> no_default X (tb_type b) /\ e = NoDefaultAssignment.
Proof.
  unfold default_assignment, no_default. rewrite rbind_err, expect_err. split.
  - intros [[]|(op & E1 & H)]. apply expect_ok in E1. apply rbind_err in H as [H|(i & E2 & H)]; [apply expect_err in H as []|].
    apply expect_ok in E2. apply ok_or_err in H as [H ->]. eauto 8.
  - intros [(op & i & E1 & E2 & E3) ->]. right. exists op. split; [apply expect_ok; exact E1|]. apply rbind_err. right. exists i.
    split; [apply expect_ok; exact E2|]. apply ok_or_err. auto.
Qed.

Lemma default_fun X tt n n' : default_named X tt n -> default_named X tt n' -> n = n'.
Proof. intros (op & i & E1 & E2 & E3) (op' & i' & E1' & E2' & E3'). congruence. Qed.
Lemma default_not X tt n : default_named X tt n -> no_default X tt -> False.
Proof. intros (op & i & E1 & E2 & E3) (op' & i' & E1' & E2' & E3'). congruence. Qed.
Lemma named_fun X name ty ty' : assignment_named X name ty -> assignment_named X name ty' -> ty = ty'.
Proof. unfold assignment_named. congruence. Qed.

Section T.
Context (X : BuildCtx) (contract tt : N) (b : TrBuilder) (l : list Item) (R : repr_t X contract tt b l).
Let Ro : repr X (tb_builder b) l := rt_op _ _ _ _ _ R.

(** Calls which name an assignment and ask for one item *)
Lemma t_named_err c name (i : N -> Item) (k : N -> result BuilderError OpBuilder) e :
  t_call X b c = rmap (tb_set b) (named X name k) ->
  ~ t_too_long c -> t_name c = Some name -> t_by_default c = false -> t_amount c = false ->
  (forall it, t_asks X tt l c it <-> exists ty, assignment_named X name ty /\ it = i ty) ->
  (forall ty e, k ty = Err e <-> wrong X l (i ty) e) ->
  (match c with TMetadata _ _ | TGlobal _ _ => False | _ => True end) ->
  t_call X b c = Err e <-> t_refused X tt l c e.
Proof.
  intros Ec Hl Hn Hd Ha Hask Hk Hc. rewrite Ec, rmap_err, named_err. split.
  - intros [[H ->]|(ty & En & H)].
    + apply no_assignment; [exact Hl|left; exact Hn|exact H].
    + apply wrong_item with (i := i ty); [apply Hask; eauto|apply Hk; exact H].
  - intros W. inversion W; subst; try contradiction; try congruence.
    + destruct H0 as [H0|[H0 _]]; [|congruence]. left. split; [|congruence]. assert (name0 = name) as -> by congruence. exact H1.
    + apply Hask in H as (ty & En & ->). right. exists ty. split; [exact En|apply Hk; exact H0].
Qed.

(** Calls which give an amount for a named assignment *)
Lemma t_amount_err c name s v bl e :
  (t_call X b c = Err e <-> add_fungible_state X (tb_builder b) name s v bl = Err e) ->
  ~ t_too_long c -> t_about X tt c name -> (forall n, t_about X tt c n -> n = name) -> t_amount c = true ->
  (t_by_default c = true -> ~ no_default X tt) ->
  (forall it, t_asks X tt l c it <-> exists ty tag, assignment_named X name ty /\ latest (tags l) ty = Some tag /\ it = ItOwn ty s (RAmount v bl tag)) ->
  (match c with TMetadata _ _ | TGlobal _ _ | TFungibleRaw _ _ _ _ => False | _ => True end) ->
  t_call X b c = Err e <-> t_refused X tt l c e.
Proof.
  intros Ec Hl Hn Hu Ha Hd Hask Hc. rewrite Ec, (amount_err X _ l Ro). 
  assert (Ht : forall ty, t_type X tt c ty <-> assignment_named X name ty).
  { intros ty. assert (t_type X tt c ty <-> exists n, t_about X tt c n /\ assignment_named X n ty) as -> by (destruct c; try contradiction; reflexivity).
    split; [intros (n & H1 & H2); rewrite <- (Hu n H1); exact H2|eauto]. }
  split.
  - intros [[H ->]|[(ty & En & H & ->)|(ty & tag & En & H & H2)]].
    + apply no_assignment; assumption.
    + apply no_tag; [exact Ha|apply Ht; exact En|exact H].
    + eapply wrong_item; [apply Hask|exact H2]. eauto.
  - intros W. inversion W; subst; try contradiction.
    + exfalso. eapply Hd; eassumption.
    + left. apply Hu in H0. subst name0. auto.
    + right. left. apply Ht in H0. eauto.
    + apply Hask in H as (ty & tag & En & Et & ->). right. right. eauto.
Qed.

Lemma t_det_same name s v bl e :
  tb_add_fungible_det X b name s v bl = Err e <-> add_fungible_state X (tb_builder b) name s v bl = Err e.
Proof.
  unfold tb_add_fungible_det, add_fungible_state, named. destruct (assigns_type X name) as [ty|]; cbn [ok_or rbind]; [|split; congruence].
  destruct (asset_tag_raw (tb_builder b) ty); cbn [rbind]; try (split; congruence).
  rewrite rbind_err. split; [intros [H|(? & _ & H)]; [exact H|discriminate]|auto].
Qed.

Ltac t_inv W := inversion W; subst; cbn [t_by_default t_amount t_too_long] in *; try discriminate; try contradiction; try (exfalso; tauto);
  try (match goal with H : t_about _ _ _ _ |- _ => exfalso; destruct H as [H|[H _]]; discriminate end).
Ltac t_asked := match goal with A : t_asks _ _ _ _ _, H : wrong _ _ _ _ |- _ => inversion A; subst; exact H end.
Ltac ask_iff := intros it; split; [intros A; inversion A; subst; eauto 6|].

Lemma t_err c e : t_call X b c = Err e <-> t_refused X tt l c e.
Proof.
  pose proof (rt_type _ _ _ _ _ R) as Ety. pose proof (own_err X (tb_builder b) l Ro) as Own.
  assert (Dn : forall n, default_assignment X b = Ok n <-> default_named X tt n) by (intros n; rewrite default_ok, Ety; reflexivity).
  assert (De : forall e, default_assignment X b = Err e <-> no_default X tt /\ e = NoDefaultAssignment) by (intros e0; rewrite default_err, Ety; reflexivity).
  clear Ety.
  assert (DefAmount : forall c s v bl, t_by_default c = true ->
    (match c with TMetadata _ _ | TGlobal _ _ | TFungibleRaw _ _ _ _ => False | _ => True end) -> t_name c = None -> t_amount c = true -> ~ t_too_long c ->
    (forall n, default_named X tt n -> t_call X b c = Err e <-> add_fungible_state X (tb_builder b) n s v bl = Err e) ->
    ((forall n, ~ default_named X tt n) -> t_call X b c = Err e <-> default_assignment X b = Err e) ->
    (forall n it, default_named X tt n -> t_asks X tt l c it <->
       exists ty tag, assignment_named X n ty /\ latest (tags l) ty = Some tag /\ it = ItOwn ty s (RAmount v bl tag)) ->
    (forall it, t_asks X tt l c it -> exists n, default_named X tt n) ->
    t_call X b c = Err e <-> t_refused X tt l c e).
  { intros c0 s v bl Hd Hc Hn Ha Hl H1 H2 Hask Hask2. destruct (default_assignment X b) as [n|e0|] eqn:Ed.
    - pose proof (proj1 (Dn n) eq_refl) as Hdn. apply (t_amount_err c0 n s v bl e); auto.
      + right. auto.
      + intros n' [H|[_ H]]; [congruence|]. eapply default_fun; eassumption.
      + intros _ H. eapply default_not; eassumption.
    - pose proof (proj1 (De e0) eq_refl) as [Hno ->].
      assert (forall n, ~ default_named X tt n) as Hnn by (intros n H; eapply default_not; eassumption).
      rewrite (H2 Hnn). split.
      + intros [= <-]. apply no_default_named; assumption.
      + intros W. inversion W; subst; try contradiction; try reflexivity.
        * destruct H0 as [H0|[_ H0]]; [congruence|]. exfalso. eapply Hnn. exact H0.
        * assert (t_type X tt c0 ty <-> exists n, t_about X tt c0 n /\ assignment_named X n ty) as Hty by (destruct c0; try contradiction; reflexivity).
          apply Hty in H0 as (n & [Hx|[_ Hx]] & _); [congruence|]. exfalso. eapply Hnn. exact Hx.
        * exfalso. destruct (Hask2 _ H) as [n Hx]. eapply Hnn. exact Hx.
    - assert (forall n, ~ default_named X tt n) as Hnn by (intros n H; apply Dn in H; discriminate).
      rewrite (H2 Hnn). split; [discriminate|]. intros W. exfalso. inversion W; subst; try contradiction.
      + assert (no_default X tt /\ NoDefaultAssignment = NoDefaultAssignment) as Hx by auto. apply De in Hx. discriminate.
      + destruct H0 as [H0|[_ H0]]; [congruence|]. eapply Hnn. exact H0.
      + assert (t_type X tt c0 ty <-> exists n, t_about X tt c0 n /\ assignment_named X n ty) as Hty by (destruct c0; try contradiction; reflexivity).
        apply Hty in H0 as (n & [Hx|[_ Hx]] & _); [congruence|]. eapply Hnn. exact Hx.
      + destruct (Hask2 _ H) as [n Hx]. eapply Hnn. exact Hx. }
  destruct c.
  - (* nonce *) cbn [t_call]. split; [discriminate|]. intros W. t_inv W. inversion H; subst. inversion H0.
  - (* tag *) apply (t_named_err (TAssetTag name tag) name (fun ty => ItTag ty tag) (fun ty => add_asset_tag_raw (tb_builder b) ty tag)); auto.
    + ask_iff. intros (ty & En & ->). constructor. exact En.
    + intros ty e0. apply tag_err. exact Ro.
  - (* raw tag *) cbn [t_call]. rewrite rmap_err, (tag_err X _ l Ro). split.
    + intros W. eapply wrong_item; [constructor|exact W].
    + intros W. t_inv W. t_asked.
  - (* metadata *) cbn [t_call]. rewrite rmap_err. destruct v as [v|].
    + destruct (type_of (fm_metadata (bc_impl X)) name) as [ty|] eqn:En.
      * rewrite (meta_err X _ l Ro name ty v e En). split.
        -- intros W. eapply wrong_item; [constructor; exact En|exact W].
        -- intros W. t_inv W.
           ++ match goal with H : forall ty, _ <> Some ty |- _ => exfalso; exact (H _ En) end.
           ++ inversion H; subst. assert (ty0 = ty) as -> by congruence. exact H0.
      * unfold add_metadata. cbn [ok_or rbind]. rewrite En. cbn [ok_or rbind]. split.
        -- intros [= <-]. apply no_metadata. congruence.
        -- intros W. t_inv W; try reflexivity. inversion H; subst. congruence.
    + cbn. split.
      * intros [= <-]. apply too_long; [exact Logic.I|discriminate].
      * intros W. t_inv W; try reflexivity. inversion H.
  - (* global *) cbn [t_call]. rewrite rmap_err. destruct v as [v|].
    + destruct (type_of (fm_globals (bc_impl X)) name) as [ty|] eqn:En.
      * rewrite (global_err X _ l Ro name ty v e En). split.
        -- intros W. eapply wrong_item; [constructor; exact En|exact W].
        -- intros W. t_inv W.
           ++ match goal with H : forall ty, _ <> Some ty |- _ => exfalso; exact (H _ En) end.
           ++ inversion H; subst. assert (ty0 = ty) as -> by congruence. exact H0.
      * unfold add_global_state. cbn [ok_or rbind]. rewrite En. cbn [ok_or rbind]. split.
        -- intros [= <-]. apply no_global. congruence.
        -- intros W. t_inv W; try reflexivity. inversion H; subst. congruence.
    + cbn. split.
      * intros [= <-]. apply too_long; [exact Logic.I|discriminate].
      * intros W. t_inv W; try reflexivity. inversion H.
  - (* input *) cbn [t_call]. unfold add_input. rewrite ok_or_bind_err, cinsert_none.
    pose proof (rt_inputs _ _ _ _ _ R) as [Hts Htg]. rewrite (latest_len (ins l) (tb_inputs b) Hts Htg). split.
    + intros [H ->]. eapply wrong_item; [constructor|]. constructor. exact H.
    + intros W. t_inv W. inversion H; subst. inversion H0; subst. split; [assumption|reflexivity].
  - (* owned *) apply (t_named_err (TOwnedDet name seal st) name (fun ty => ItOwn ty seal st) (fun ty => add_owned_raw X (tb_builder b) ty seal st)); auto.
    ask_iff. intros (ty & En & ->). constructor. exact En.
  - (* raw owned *) cbn [t_call].
    assert (tb_add_owned_raw X b ty seal st = Err e <-> add_owned_raw X (tb_builder b) ty seal st = Err e) as ->.
    { unfold tb_add_owned_raw. destruct st; cbn [rbind].
      - rewrite rbind_err. split; [intros [H|(? & _ & H)]; [exact H|discriminate]|auto].
      - cbn [add_owned_raw]. destruct (asset_tag_raw (tb_builder b) ty) as [t|e0|]; cbn [rbind]; [|split; congruence|split; congruence].
        destruct (t =? tag); cbn [rbind]; [|split; congruence].
        rewrite rbind_err. split; [intros [H|(? & _ & H)]; [exact H|discriminate]|auto].
      - rewrite rbind_err. split; [intros [H|(? & _ & H)]; [exact H|discriminate]|auto].
      - rewrite rbind_err. split; [intros [H|(? & _ & H)]; [exact H|discriminate]|auto]. }
    rewrite Own. split.
    + intros W. eapply wrong_item; [constructor|exact W].
    + intros W. t_inv W. t_asked.
  - (* rights *) apply (t_named_err (TRights name seal) name (fun ty => ItOwn ty seal RVoid) (fun ty => add_rights_raw X (tb_builder b) ty seal)); auto.
    + ask_iff. intros (ty & En & ->). constructor. exact En.
    + intros ty e0. apply (Own ty seal RVoid).
  - (* default amount *) apply (DefAmount (TFungibleDefault seal v random) seal v random); auto.
    + intros n Hn. cbn [t_call]. apply Dn in Hn. rewrite Hn. cbn [rbind]. apply rmap_err.
    + intros Hno. cbn [t_call]. rewrite rbind_err. split; [intros [H|(n & H & _)]; [exact H|apply Dn in H; exfalso; eapply Hno; exact H]|auto].
    + intros n it Hn. split.
      * intros A. inversion A; subst. assert (name = n) as -> by (eapply default_fun; eassumption). eauto 6.
      * intros (ty & tag & En & Et & ->). econstructor; eassumption.
    + intros it A. inversion A; subst. eauto.
  - apply (DefAmount (TFungibleDefaultDet seal v blinding) seal v blinding); auto.
    + intros n Hn. cbn [t_call]. apply Dn in Hn. rewrite Hn. cbn [rbind]. apply t_det_same.
    + intros Hno. cbn [t_call]. rewrite rbind_err. split; [intros [H|(n & H & _)]; [exact H|apply Dn in H; exfalso; eapply Hno; exact H]|auto].
    + intros n it Hn. split.
      * intros A. inversion A; subst. assert (name = n) as -> by (eapply default_fun; eassumption). eauto 6.
      * intros (ty & tag & En & Et & ->). econstructor; eassumption.
    + intros it A. inversion A; subst. eauto.
  - (* amount *) apply (t_amount_err (TFungible name seal v random) name seal v random e); auto.
    + cbn [t_call]. apply rmap_err.
    + left. reflexivity.
    + intros n [H|[H _]]; [cbn in H; congruence|discriminate].
    + discriminate.
    + intros it. split; [intros A; inversion A; subst; eauto 6|]. intros (ty & tag & En & Et & ->). constructor; assumption.
  - apply (t_amount_err (TFungibleDet name seal v blinding) name seal v blinding e); auto.
    + cbn [t_call]. apply t_det_same.
    + left. reflexivity.
    + intros n [H|[H _]]; [cbn in H; congruence|discriminate].
    + discriminate.
    + intros it. split; [intros A; inversion A; subst; eauto 6|]. intros (ty & tag & En & Et & ->). constructor; assumption.
  - (* raw amount *) cbn [t_call].
    assert (tb_add_fungible_raw X b ty seal v blinding = Err e <->
      (let! tag := asset_tag_raw (tb_builder b) ty in add_fungible_raw X (tb_builder b) ty seal {| rv_value := v; rv_blinding := blinding; rv_tag := tag |}) = Err e) as ->.
    { unfold tb_add_fungible_raw. destruct (asset_tag_raw (tb_builder b) ty); cbn [rbind]; try (split; congruence).
      rewrite rbind_err. split; [intros [H|(? & _ & H)]; [exact H|discriminate]|auto]. }
    rewrite (amount_raw_err X _ l Ro). split.
    + intros [[H ->]|(tag & H & H2)]; [apply no_tag; [reflexivity|reflexivity|exact H]|].
      eapply wrong_item; [constructor; exact H|exact H2].
    + intros W. t_inv W.
      * cbn in *. subst. left. auto.
      * inversion H; subst. right. eauto.
  - (* data *) cbn [t_call]. rewrite rmap_err, (data_err X _ l Ro). split.
    + intros [[-> ->]|[(Hv & H & ->)|(ty & w & -> & En & H)]].
      * apply too_long; [exact Logic.I|discriminate].
      * apply no_assignment; [destruct v; cbn; tauto|left; reflexivity|exact H].
      * eapply wrong_item; [constructor; exact En|exact H].
    + intros W. inversion W; subst; cbn [t_by_default t_amount] in *; try discriminate.
      * left. destruct v; cbn in *; [contradiction|auto].
      * right. left. destruct H0 as [[= ->]|[H0 _]]; [|discriminate]. split; [destruct v; cbn in *; [discriminate|tauto]|auto].
      * inversion H; subst. right. right. eauto 6.
  - apply (t_named_err (TDataDet name seal v salt) name (fun ty => ItOwn ty seal (RData v salt)) (fun ty => add_data_raw X (tb_builder b) ty seal (v, salt))); auto.
    + ask_iff. intros (ty & En & ->). constructor. exact En.
    + intros ty e0. apply (Own ty seal (RData v salt)).
  - (* raw data *) cbn [t_call]. unfold tb_add_data_raw.
    assert ((let! ob := add_data_raw X (tb_builder b) ty seal (v, salt) in Ok (tb_set b ob)) = Err e <-> add_owned_raw X (tb_builder b) ty seal (RData v salt) = Err e) as ->.
    { rewrite rbind_err. cbn [add_owned_raw]. split; [intros [H|(? & _ & H)]; [exact H|discriminate]|auto]. }
    rewrite Own. split.
    + intros W. eapply wrong_item; [constructor|exact W].
    + intros W. t_inv W. t_asked.
  - (* default data *) cbn [t_call]. rewrite rbind_err. split.
    + intros [H|(n & Hn & H)].
      * apply De in H as [H ->]. apply no_default_named; [reflexivity|exact H].
      * apply Dn in Hn. rewrite rmap_err, (data_err X _ l Ro) in H. destruct H as [[-> ->]|[(Hv & H & ->)|(ty & w & -> & En & H)]].
        -- apply too_long; [exact Logic.I|eauto].
        -- apply no_assignment; [destruct v; cbn; tauto|right; auto|exact H].
        -- eapply wrong_item; [econstructor; eassumption|exact H].
    + intros W. inversion W; subst; cbn [t_by_default t_amount] in *; try discriminate.
      * left. apply De. auto.
      * right. destruct (H0 eq_refl) as (n & Hn). exists n. split; [apply Dn; exact Hn|]. apply rmap_err, (data_err X _ l Ro). left.
        destruct v; cbn in *; [contradiction|auto].
      * right. destruct H0 as [H0|[_ H0]]; [discriminate|]. exists name. split; [apply Dn; exact H0|]. apply rmap_err, (data_err X _ l Ro).
        right. left. split; [destruct v; cbn in *; [discriminate|tauto]|auto].
      * right. inversion H; subst. exists name. split; [apply Dn; assumption|]. apply rmap_err, (data_err X _ l Ro). right. right. eauto 6.
  - apply (t_named_err (TAttachment name seal file random) name (fun ty => ItOwn ty seal (RAttach file random)) (fun ty => add_attachment_raw X (tb_builder b) ty seal (file, random))); auto.
    + ask_iff. intros (ty & En & ->). constructor. exact En.
    + intros ty e0. apply (Own ty seal (RAttach file random)).
  - apply (t_named_err (TAttachmentDet name seal file salt) name (fun ty => ItOwn ty seal (RAttach file salt)) (fun ty => add_attachment_raw X (tb_builder b) ty seal (file, salt))); auto.
    + ask_iff. intros (ty & En & ->). constructor. exact En.
    + intros ty e0. apply (Own ty seal (RAttach file salt)).
Qed.
End T.

(** ** Contracts *)
Lemma amount_tagged X b l ty : repr X b l -> latest (tags l) ty = None -> mhas ty (ob_fungible b) = false.
Proof.
  intros R Et. apply (repr_fungible_has X b l ty R). unfold types_of. intros Hin. apply in_map_iff in Hin as ([[ty' s] st] & E & Hin).
  cbn in E. subst ty'. apply filter_In in Hin as [Hin Hk]. cbn in Hk. destruct st; try discriminate. apply (rp_tagged _ _ _ R) in Hin. congruence.
Qed.
Lemma init_some X b l name ty t random : repr X b l -> assignment_named X name ty -> latest (tags l) ty = Some t ->
  init_asset_tag X b name random = Ok (b, t).
Proof. intros R En Et. unfold init_asset_tag, named, assigns_type. rewrite En. cbn [ok_or rbind]. rewrite (tag_get X b l R), Et. reflexivity. Qed.
Lemma init_none X b l name ty random : repr X b l -> assignment_named X name ty -> latest (tags l) ty = None ->
  init_asset_tag X b name random = rmap (fun b1 => (b1, random)) (add_asset_tag_raw b ty random).
Proof.
  intros R En Et. unfold init_asset_tag, named, assigns_type. rewrite En. cbn [ok_or rbind]. rewrite (tag_get X b l R), Et.
  unfold add_asset_tag_raw. rewrite (amount_tagged X b l ty R Et). destruct (cinsert U8MAX ty random (ob_tags b)); reflexivity.
Qed.
Lemma init_unnamed X b name random : (forall ty, ~ assignment_named X name ty) -> init_asset_tag X b name random = Err (AssignmentNotFound name).
Proof.
  intros H. unfold init_asset_tag, named. destruct (assigns_type X name) as [ty|] eqn:E; [|reflexivity]. exfalso. exact (H ty E).
Qed.
Lemma first_one X l i e : first_wrong X l [i] e <-> wrong X l i e.
Proof. split; [intros W; inversion W; subst; [assumption|]; inversion H3|intros W; constructor; exact W]. Qed.

(** The amount calls: [add] puts the amount with the tag [t] to its type *)
Lemma c_amount_err X b l name s v bl random e (add : OpBuilder * N -> result BuilderError OpBuilder) :
  repr X b l ->
  (forall b1 l1 ty t, repr X b1 l1 -> assignment_named X name ty -> latest (tags l1) ty = Some t ->
     add (b1, t) = add_owned_raw X b1 ty s (RAmount v bl t)) ->
  (let! r := init_asset_tag X b name random in add r) = Err e <->
  ((forall ty, ~ assignment_named X name ty) /\ e = AssignmentNotFound name) \/
  (exists ty, assignment_named X name ty /\ first_wrong X l (amount_items l ty s v bl random) e).
Proof.
  intros R Hadd. destruct (type_of (fm_assigns (bc_impl X)) name) as [ty|] eqn:En.
  2: { rewrite init_unnamed by (unfold assignment_named; congruence). cbn [rbind]. split.
    - intros [= <-]. left. split; [unfold assignment_named; congruence|reflexivity].
    - intros [[_ ->]|(ty & H & _)]; [reflexivity|unfold assignment_named in H; congruence]. }
  fold (assignment_named X name ty) in En.
  assert (forall P : N -> Prop, (exists ty, assignment_named X name ty /\ P ty) <-> P ty) as Hone.
  { intros P. split; [intros (ty' & H & HP); rewrite (named_fun _ _ _ _ En H); exact HP|eauto]. }
  rewrite (Hone (fun ty => first_wrong X l (amount_items l ty s v bl random) e)).
  assert (forall Q, (((forall ty, ~ assignment_named X name ty) /\ e = AssignmentNotFound name) \/ Q) <-> Q) as ->.
  { intros Q. split; [|auto]. intros [[H _]|H]; [exfalso; exact (H ty En)|exact H]. }
  unfold amount_items. destruct (latest (tags l) ty) as [t|] eqn:Et.
  - rewrite (init_some X b l name ty t random R En Et). cbn [rbind]. rewrite (Hadd b l ty t R En Et), (own_err X b l R), first_one. reflexivity.
  - rewrite (init_none X b l name ty random R En Et), rbind_err, rmap_err, (tag_err X b l R). split.
    + intros [W|([b1 t] & H & H2)]; [constructor; exact W|]. apply rmap_ok in H as (b2 & H & E). injection E as -> ->.
      destruct (repr_tag X b l ty random b2 R H) as [Ha R1]. apply first_later; [exact Ha|]. apply first_one.
      rewrite (Hadd b2 _ ty random R1 En (tags_tag l ty random)) in H2. apply (own_err X b2 _ R1). exact H2.
    + intros W. inversion W as [? ? ? W1|? ? ? Ha W1]; subst; [left; exact W1|right].
      destruct (repr_tag_can X b l ty random R Ha) as [b1 H]. destruct (repr_tag X b l ty random b1 R H) as [_ R1].
      exists (b1, random). split; [rewrite H; reflexivity|]. rewrite (Hadd b1 _ ty random R1 En (tags_tag l ty random)).
      apply (own_err X b1 _ R1). apply first_one. exact W1.
Qed.

Section C.
Context (X : BuildCtx) (issuer : N) (b : CtBuilder) (l : list Item) (R : repr_c X issuer b l).
Let Ro : repr X (cb_builder b) l := rc_op _ _ _ _ R.

(** Calls with a seal *)
Lemma layer_err s {A} (r : result BuilderError A) e :
  (let! _ := check_layer1 b (bseal_layer X s) in r) = Err e <->
  (~ layer_ok X l s /\ e = InvalidLayer1 (chain_of X s)) \/ (layer_ok X l s /\ r = Err e).
Proof.
  pose proof (layer_iff X issuer b l s R) as H. unfold check_layer1 in *. change (bseal_layer X s) with (chain_of X s) in *.
  destruct (has_layer1 b (chain_of X s)); cbn [rbind].
  - pose proof (proj1 H eq_refl) as Hy. split; [auto|]. intros [[Hn _]|[_ Hr]]; [contradiction|exact Hr].
  - assert (~ layer_ok X l s) as Hn by (intros Hy; apply H in Hy; discriminate). split.
    + intros [= <-]. left. auto.
    + intros [[_ ->]|[Hy _]]; [reflexivity|contradiction].
Qed.

(** Calls with a seal which name an assignment *)
Lemma c_sealed_err c s name (items : N -> list Item) (r : result BuilderError CtBuilder) e :
  c_call X b c = (let! _ := check_layer1 b (bseal_layer X s) in r) ->
  c_seal c = Some s -> c_name c = Some name ->
  (r = Err e <-> (c_too_long c /\ e = NotSerializable) \/
     (~ c_too_long c /\ (forall ty, ~ assignment_named X name ty) /\ e = AssignmentNotFound name) \/
     (~ c_too_long c /\ exists ty, assignment_named X name ty /\ first_wrong X l (items ty) e)) ->
  (forall new, c_asks X l c new <-> layer_ok X l s /\ ~ c_too_long c /\ exists ty, assignment_named X name ty /\ new = items ty) ->
  c_call X b c = Err e <-> c_refused X l c e.
Proof.
  intros Ec Hs Hn Hr Hask. rewrite Ec, layer_err, Hr.
  assert (c_layer_ok X l c <-> layer_ok X l s) as Hlay.
  { unfold c_layer_ok. split; [intros H; apply H; exact Hs|]. intros H s' Hs'. congruence. }
  split.
  - intros [[H ->]|[Hl [[H ->]|[(H & H2 & ->)|(H & ty & En & H2)]]]].
    + apply c_no_layer; assumption.
    + apply c_too_long_value; [apply (proj2 Hlay); exact Hl|exact H].
    + apply c_no_assignment; [apply (proj2 Hlay); exact Hl|exact H|exact Hn|exact H2].
    + eapply c_wrong_item; [apply Hask|exact H2]. eauto.
  - intros W. inversion W; subst; try discriminate Hs.
    + left. assert (s0 = s) as -> by congruence. auto.
    + right. split; [apply (proj1 Hlay); assumption|]. auto.
    + right. split; [apply (proj1 Hlay); assumption|]. right. left. assert (name0 = name) as -> by congruence. auto.
    + apply Hask in H as (Hl & Hlong & ty & En & ->). right. split; [exact Hl|]. right. right. eauto.
Qed.

(** The same when one item is asked for *)
Lemma c_item_err c s name (i : N -> Item) (k : N -> result BuilderError OpBuilder) e :
  c_call X b c = (let! _ := check_layer1 b (bseal_layer X s) in rmap (cb_set b) (named X name k)) ->
  c_seal c = Some s -> c_name c = Some name -> ~ c_too_long c ->
  (forall ty, k ty = Err e <-> wrong X l (i ty) e) ->
  (forall new, c_asks X l c new <-> layer_ok X l s /\ exists ty, assignment_named X name ty /\ new = [i ty]) ->
  c_call X b c = Err e <-> c_refused X l c e.
Proof.
  intros Ec Hs Hn Hlong Hk Hask. eapply (c_sealed_err c s name (fun ty => [i ty])); [exact Ec|exact Hs|exact Hn| |].
  - rewrite rmap_err, named_err. split.
    + intros [H|(ty & En & H)]; right; [left; auto|right]. split; [exact Hlong|]. exists ty. split; [exact En|]. apply first_one, Hk. exact H.
    + intros [[H _]|[(_ & H)|(_ & ty & En & H)]]; [contradiction|left; exact H|right]. exists ty. split; [exact En|]. apply Hk, first_one. exact H.
  - intros new. rewrite Hask. tauto.
Qed.

Ltac c_inv W := inversion W; subst; cbn [c_seal c_too_long c_name] in *; try discriminate; try contradiction; try (exfalso; tauto).

Lemma c_err c e : c_call X b c = Err e <-> c_refused X l c e.
Proof.
  pose proof (own_err X (cb_builder b) l Ro) as Own.
  destruct c.
  - cbn [c_call]. split; [discriminate|]. intros W. c_inv W. inversion H; subst. apply first_one in H0. inversion H0.
  - cbn [c_call]. split; [discriminate|]. intros W. c_inv W. inversion H; subst. apply first_one in H0. inversion H0.
  - cbn [c_call]. unfold add_asset_tag. rewrite rmap_err, named_err. split.
    + intros [[H ->]|(ty & En & H)].
      * apply c_no_assignment; [discriminate|cbn; tauto|reflexivity|exact H].
      * eapply c_wrong_item; [constructor; exact En|]. apply first_one, (tag_err X _ l Ro). exact H.
    + intros W. c_inv W.
      * left. assert (name0 = name) as -> by congruence. auto.
      * right. inversion H; subst. exists ty. split; [assumption|]. apply (tag_err X _ l Ro), first_one. exact H0.
  - cbn [c_call]. rewrite rmap_err. destruct v as [v|].
    + destruct (type_of (fm_metadata (bc_impl X)) name) as [ty|] eqn:En.
      * rewrite (meta_err X _ l Ro name ty v e En). split.
        -- intros W. eapply c_wrong_item; [constructor; exact En|]. apply first_one. exact W.
        -- intros W. c_inv W.
           ++ match goal with H : forall ty, _ <> Some ty |- _ => exfalso; exact (H _ En) end.
           ++ inversion H; subst. assert (ty0 = ty) as -> by congruence. apply first_one. exact H0.
      * unfold add_metadata. cbn [ok_or rbind]. rewrite En. cbn [ok_or rbind]. split.
        -- intros [= <-]. apply c_no_metadata. congruence.
        -- intros W. c_inv W; try reflexivity. inversion H; subst. congruence.
    + cbn. split.
      * intros [= <-]. apply c_too_long_value; [discriminate|exact Logic.I].
      * intros W. c_inv W; try reflexivity. inversion H.
  - cbn [c_call]. rewrite rmap_err. destruct v as [v|].
    + destruct (type_of (fm_globals (bc_impl X)) name) as [ty|] eqn:En.
      * rewrite (global_err X _ l Ro name ty v e En). split.
        -- intros W. eapply c_wrong_item; [constructor; exact En|]. apply first_one. exact W.
        -- intros W. c_inv W.
           ++ match goal with H : forall ty, _ <> Some ty |- _ => exfalso; exact (H _ En) end.
           ++ inversion H; subst. assert (ty0 = ty) as -> by congruence. apply first_one. exact H0.
      * unfold add_global_state. cbn [ok_or rbind]. rewrite En. cbn [ok_or rbind]. split.
        -- intros [= <-]. apply c_no_global. congruence.
        -- intros W. c_inv W; try reflexivity. inversion H; subst. congruence.
    + cbn. split.
      * intros [= <-]. apply c_too_long_value; [discriminate|exact Logic.I].
      * intros W. c_inv W; try reflexivity. inversion H.
  - apply (c_item_err (COwnedDet name seal st) seal name (fun ty => ItOwn ty seal st) (fun ty => add_owned_raw X (cb_builder b) ty seal st)); auto.
    intros new. split; [intros A; inversion A; subst; eauto 9|]. intros (Hl & ty & En & ->). constructor; assumption.
  - apply (c_item_err (CRights name seal) seal name (fun ty => ItOwn ty seal RVoid) (fun ty => add_rights_raw X (cb_builder b) ty seal)); auto.
    + intros ty. apply (Own ty seal RVoid).
    + intros new. split; [intros A; inversion A; subst; eauto 9|]. intros (Hl & ty & En & ->). constructor; assumption.
  - eapply (c_sealed_err (CFungible name seal v random tag) seal name (fun ty => amount_items l ty seal v random tag)); try reflexivity.
    + rewrite rbind_rmap, rmap_err. rewrite (c_amount_err X (cb_builder b) l name seal v random tag e
        (fun r => add_fungible_state X (fst r) name seal v random) Ro).
      * cbn [c_too_long]. tauto.
      * intros b1 l1 ty t R1 En Et. cbn [fst]. unfold add_fungible_state, named, assigns_type. rewrite En. cbn [ok_or rbind].
        unfold asset_tag_raw. rewrite (tag_get X b1 l1 R1), Et. cbn [ok_or rbind]. apply fungible_as_owned. rewrite (tag_get X b1 l1 R1). exact Et.
    + intros new. cbn [c_too_long]. split; [intros A; inversion A; subst; eauto 9|]. intros (Hl & _ & ty & En & ->). constructor; assumption.
  - eapply (c_sealed_err (CFungibleDet name seal v blinding tag) seal name (fun ty => amount_items l ty seal v blinding tag)); try reflexivity.
    + rewrite rbind_rmap, rmap_err. rewrite (c_amount_err X (cb_builder b) l name seal v blinding tag e
        (fun r => named X name (fun ty => add_fungible_raw X (fst r) ty seal {| rv_value := v; rv_blinding := blinding; rv_tag := snd r |})) Ro).
      * cbn [c_too_long]. tauto.
      * intros b1 l1 ty t R1 En Et. cbn [fst snd]. unfold named, assigns_type. rewrite En. cbn [ok_or rbind].
        apply fungible_as_owned. rewrite (tag_get X b1 l1 R1). exact Et.
    + intros new. cbn [c_too_long]. split; [intros A; inversion A; subst; eauto 9|]. intros (Hl & _ & ty & En & ->). constructor; assumption.
  - eapply (c_sealed_err (CData name seal v random) seal name (fun ty => match v with Some w => [ItOwn ty seal (RData w random)] | None => [] end)); try reflexivity.
    + rewrite rmap_err, (data_err X _ l Ro). destruct v as [w|]; cbn [c_too_long].
      * split.
        -- intros [[H _]|[(_ & H)|(ty & w' & [= <-] & En & H)]]; [discriminate|right; left; tauto|right; right]. split; [tauto|].
           exists ty. split; [exact En|]. apply first_one. exact H.
        -- intros [[[] _]|[(_ & H)|(_ & ty & En & H)]]; right; [left; split; [discriminate|exact H]|right]. apply first_one in H. eauto 6.
      * split.
        -- intros [[_ H]|[(H & _)|(ty & w' & H & _)]]; [left; auto|congruence|discriminate].
        -- intros [[_ H]|[(H & _)|(H & _)]]; [left; auto|tauto|tauto].
    + intros new. split.
      * intros A. inversion A; subst. cbn [c_too_long]. eauto 9.
      * intros (Hl & Hlong & ty & En & ->). destruct v as [w|]; cbn [c_too_long] in Hlong; [|tauto]. constructor; assumption.
  - apply (c_item_err (CDataDet name seal v salt) seal name (fun ty => ItOwn ty seal (RData v salt)) (fun ty => add_data_raw X (cb_builder b) ty seal (v, salt))); auto.
    + intros ty. apply (Own ty seal (RData v salt)).
    + intros new. split; [intros A; inversion A; subst; eauto 9|]. intros (Hl & ty & En & ->). constructor; assumption.
  - apply (c_item_err (CAttachment name seal file random) seal name (fun ty => ItOwn ty seal (RAttach file random)) (fun ty => add_attachment_raw X (cb_builder b) ty seal (file, random))); auto.
    + intros ty. apply (Own ty seal (RAttach file random)).
    + intros new. split; [intros A; inversion A; subst; eauto 9|]. intros (Hl & ty & En & ->). constructor; assumption.
  - apply (c_item_err (CAttachmentDet name seal file salt) seal name (fun ty => ItOwn ty seal (RAttach file salt)) (fun ty => add_attachment_raw X (cb_builder b) ty seal (file, salt))); auto.
    + intros ty. apply (Own ty seal (RAttach file salt)).
    + intros new. split; [intros A; inversion A; subst; eauto 9|]. intros (Hl & ty & En & ->). constructor; assumption.
Qed.
End C.
