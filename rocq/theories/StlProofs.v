(** * Lemmas on standard contract data *)
From Coq Require Import Ascii String.
From Verif Require Import Base Str AmountModel StlModel StlSpec.
Local Open Scope list_scope. Local Open Scope N_scope.

(** ** Alphabets *)
Lemma existsb_char c l : existsb (is_char c) l = true <-> In c l.
Proof.
  rewrite existsb_exists. split.
  - intros (x & Hx & E). apply is_char_eq in E. subst. exact Hx.
  - intros Hx. exists c. split; [exact Hx|apply is_char_refl].
Qed.
Definition all_chars : list ascii := map (fun n => ascii_of_nat n) (seq 0 256).
Lemma all_chars_in c : In c all_chars.
Proof.
  unfold all_chars. apply in_map_iff. exists (nat_of_ascii c). split; [apply ascii_nat_embedding|].
  apply in_seq. pose proof (nat_ascii_bounded c). lia.
Qed.
Lemma by_all (P : ascii -> bool) : forallb P all_chars = true -> forall c, P c = true.
Proof. intros H c. rewrite forallb_forall in H. apply H, all_chars_in. Qed.
Lemma alphabet f l : forallb (fun c => Bool.eqb (f c) (existsb (is_char c) l)) all_chars = true -> forall c, f c = true <-> In c l.
Proof.
  intros H c. pose proof (by_all _ H c) as E. cbn beta in E. apply Bool.eqb_prop in E. rewrite E. apply existsb_char.
Qed.
Lemma alpha_small_spec c : alpha_small c = true <-> In c smalls.
Proof. revert c. apply alphabet. vm_compute. reflexivity. Qed.
Lemma alpha_spec c : alpha c = true <-> In c letters.
Proof. revert c. apply alphabet. vm_compute. reflexivity. Qed.
Lemma alpha_num_spec c : alpha_num c = true <-> In c alphanumeric.
Proof. revert c. apply alphabet. vm_compute. reflexivity. Qed.
Lemma printable_spec c : printable c = true <-> In c visible.
Proof. revert c. apply alphabet. vm_compute. reflexivity. Qed.
Lemma mime_char_spec c : mime_char c = true <-> In c media_chars.
Proof. revert c. apply alphabet. vm_compute. reflexivity. Qed.

(** ** Restricted strings *)
Definition exactly (f : str -> result StlError str) (P : str -> Prop) : Prop :=
  (forall s t, f s = Ok t <-> t = s /\ P s) /\ (forall s, f s <> Panic).
Lemma rstring_spec first rest lo hi F R :
  lo <> 0 -> (forall c, first c = true <-> In c F) -> (forall c, rest c = true <-> In c R) ->
  exactly (rstring first rest lo hi) (text F R lo hi).
Proof.
  intros Hlo HF HR. split.
  - intros s t. unfold rstring, text. destruct s as [|c s'].
    + destruct (N.eqb_spec lo 0); [contradiction|]. split; [discriminate|]. intros (_ & (c & s' & E & _) & _). discriminate E.
    + destruct (first c && forallb rest s' && (lo <=? len (c :: s')) && (len (c :: s') <=? hi)) eqn:E.
      * apply andb_true_iff in E as [E E4]. apply andb_true_iff in E as [E E3]. apply andb_true_iff in E as [E1 E2].
        apply N.leb_le in E3, E4. split.
        -- intros X. apply Ok_inj in X. subst t. split; [reflexivity|]. split; [|split; assumption].
           exists c, s'. split; [reflexivity|]. split; [apply HF; exact E1|]. apply Forall_forall. intros d Hd. apply HR.
           rewrite forallb_forall in E2. apply E2. exact Hd.
        -- intros [-> _]. reflexivity.
      * split; [discriminate|]. intros (-> & (c' & s'' & X & H1 & H2) & H3). injection X as <- <-. exfalso.
        apply HF in H1. rewrite H1 in E. replace (forallb rest s') with true in E.
        2:{ symmetry. apply forallb_forall. intros d Hd. apply HR. rewrite Forall_forall in H2. apply H2. exact Hd. }
        cbn [andb] in E. destruct H3 as [H3 H4]. apply N.leb_le in H3, H4. rewrite H3, H4 in E. discriminate E.
  - intros [|c s]; unfold rstring; [destruct (lo =? 0)|destruct (first c && _ && _ && _)]; discriminate.
Qed.
Lemma article_spec : exactly article_of is_article.
Proof. apply rstring_spec; [lia|apply alpha_spec|apply alpha_num_spec]. Qed.
Lemma ticker_spec : exactly ticker_of is_ticker.
Proof. apply rstring_spec; [lia|apply alpha_spec|apply alpha_num_spec]. Qed.
Lemma name_spec : exactly name_of_text is_name.
Proof. apply rstring_spec; [lia|apply printable_spec|apply printable_spec]. Qed.
Lemma reg_name_spec : exactly reg_name_of is_media_name.
Proof. apply rstring_spec; [lia|apply alpha_small_spec|apply mime_char_spec]. Qed.
Lemma details_spec : exactly details_of is_details.
Proof.
  split; [intros s t|intros s]; unfold details_of, is_details;
    destruct (N.leb_spec 1 (len s)), (N.leb_spec (len s) 255); cbn [andb]; try discriminate;
    (split; [|intros [-> ?]; reflexivity || lia]); try discriminate; intros E; apply Ok_inj in E; subst t; auto.
Qed.
Lemma ricardian_spec : exactly ricardian_of is_ricardian.
Proof.
  split; [intros s t|intros s]; unfold ricardian_of, is_ricardian; change U16MAX with 65535;
    destruct (N.leb_spec (len s) 65535); cbn [andb]; try discriminate;
    (split; [|intros [-> ?]; reflexivity || lia]); try discriminate; intros E; apply Ok_inj in E; subst t; auto.
Qed.

(** ** Monadic steps *)
Lemma bind_ok {E A B} (e : result E A) (k : A -> result E B) y : (let! x := e in k x) = Ok y <-> exists x, e = Ok x /\ k x = Ok y.
Proof.
  destruct e as [a| |]; cbn [rbind]; split; try discriminate; try (intros (x & X & _); discriminate X).
  - intros H. eauto.
  - intros (x & X & H). apply Ok_inj in X. subst. exact H.
Qed.
Lemma rmap_some {A} (r : result StlError A) o : rmap Some r = Ok o <-> exists a, o = Some a /\ r = Ok a.
Proof.
  destruct r as [a| |]; cbn; split; try discriminate; try (intros (x & _ & X); discriminate X).
  - intros X. apply Ok_inj in X. subst. eauto.
  - intros (x & -> & X). apply Ok_inj in X. subst. reflexivity.
Qed.
Lemma vop_ok {A} (r : result StlError A) y : valid_or_panic r = Ok y <-> r = Ok y.
Proof. destruct r; cbn; split; try discriminate; auto. Qed.
Lemma opt_details_spec d d' : opt_details d = Ok d' <-> d' = d /\ if_any is_details d.
Proof.
  destruct d as [s|]; cbn [opt_details].
  - rewrite rmap_some. split.
    + intros (a & -> & E). apply details_spec in E as [-> H]. split; [reflexivity|]. intros x X. apply Some_inj in X. subst. exact H.
    + intros [-> H]. exists s. split; [reflexivity|]. apply details_spec. split; [reflexivity|apply H; reflexivity].
  - split; [intros E; apply Ok_inj in E; subst; split; [reflexivity|discriminate]|intros [-> _]; reflexivity].
Qed.
Lemma opt_details_no_panic d : opt_details d <> Panic.
Proof. destruct d as [s|]; cbn [opt_details]; [|discriminate]. pose proof (proj2 details_spec s). destruct (details_of s); cbn; congruence. Qed.

(** ** Reading strict values *)
Lemma unwrap_struct_ok f v x : unwrap_struct (lit f) v = Ok x <-> has v f x.
Proof.
  unfold has. destruct v; cbn [unwrap_struct]; try (split; [discriminate|intros (l1 & l2 & X & _); discriminate X]).
  induction fields as [|[g y] l IH]; cbn [find fst].
  - split; [discriminate|]. intros ([|? l1] & l2 & X & _); discriminate X.
  - destruct (streqb g (lit f)) eqn:E.
    + apply streqb_eq in E. subst g. cbn [snd]. split.
      * intros X. apply Ok_inj in X. subst y. exists [], l. split; [reflexivity|intros []].
      * intros ([|[h z] l1] & l2 & X & Hn); cbn [app] in X; injection X as X1 X2; [subst; reflexivity|].
        exfalso. apply Hn. left. symmetry. assumption.
    + rewrite IH. split.
      * intros (l1 & l2 & X & Hn). injection X as ->. exists ((g, y) :: l1), l2. split; [reflexivity|].
        intros [X|X]; [cbn in X; subst; rewrite streqb_refl in E; discriminate E|apply Hn; exact X].
      * intros ([|[h z] l1] & l2 & X & Hn); cbn [app] in X; injection X as X1 X2.
        -- subst. rewrite streqb_refl in E. discriminate E.
        -- exists l1, l2. subst. split; [reflexivity|]. intros X. apply Hn. right. exact X.
Qed.
Lemma unwrap_string_ok v s : unwrap_string v = Ok s <-> v = VString s.
Proof. destruct v; cbn; split; try discriminate; intros X; injection X as ->; reflexivity. Qed.
Lemma unwrap_bytes_ok v s : unwrap_bytes v = Ok s <-> v = VBytes s.
Proof. destruct v; cbn; split; try discriminate; intros X; injection X as ->; reflexivity. Qed.
Lemma unwrap_uint_ok m v n : unwrap_uint m v = Ok n <-> v = VUint n /\ n <= m.
Proof.
  destruct v; cbn; try (split; [discriminate|intros [X _]; discriminate X]).
  destruct (N.leb_spec n0 m); split; try discriminate.
  - intros X. apply Ok_inj in X. subst. auto.
  - intros [X _]. injection X as ->. reflexivity.
  - intros [X ?]. injection X as ->. lia.
Qed.
Lemma precision_of_decimals n p : precision_of_u8 n = Some p <-> n = decimals p.
Proof.
  split.
  - intros E. destruct n as [|q]; [injection E as <-; reflexivity|].
    do 5 (try destruct q as [q|q|]); cbn in E; try discriminate E; injection E as <-; reflexivity.
  - intros ->. destruct p; reflexivity.
Qed.
Lemma unwrap_precision_ok v p : unwrap_precision v = Ok p <-> v = VEnum (decimals p).
Proof.
  destruct v; cbn; try (split; [discriminate|intros X; discriminate X]).
  destruct (precision_of_u8 n) as [q|] eqn:E.
  - apply precision_of_decimals in E. subst n. split; [intros X; apply Ok_inj in X; subst; reflexivity|].
    intros X. injection X as X. f_equal. destruct q, p; cbn in X; try discriminate X; reflexivity.
  - split; [discriminate|]. intros X. injection X as X. apply precision_of_decimals in X. congruence.
Qed.
Lemma opt_val_ok {A} (f : StrictVal -> result StlError A) (W : StrictVal -> A -> Prop) (P : A -> Prop) v o :
  (forall x a, f x = Ok a <-> W x a /\ P a) -> opt_val f v = Ok o <-> optional W v o /\ if_any P o.
Proof.
  intros H. unfold opt_val. rewrite bind_ok. split.
  - intros ([x|] & E & X).
    + destruct v; try discriminate E. injection E as ->. apply rmap_some in X as (a & -> & X). apply H in X as [X1 X2].
      split; [exists x; split; [reflexivity|exact X1]|]. intros b Y. apply Some_inj in Y. subst. exact X2.
    + destruct v; try discriminate E. apply Ok_inj in X. subst o. split; [reflexivity|]. discriminate.
  - intros [Ho Hi]. destruct o as [a|]; cbn [optional] in Ho.
    + destruct Ho as (x & -> & Hx). exists (Some x). split; [reflexivity|]. apply rmap_some. exists a. split; [reflexivity|].
      apply H. split; [exact Hx|apply Hi; reflexivity].
    + subst v. exists None. split; reflexivity.
Qed.
Lemma opt_string_ok v o : opt_val unwrap_string v = Ok o <-> optional string_val v o.
Proof.
  rewrite (opt_val_ok _ string_val (fun _ => True)); [|intros x a; rewrite unwrap_string_ok; unfold string_val; tauto].
  split; [tauto|]. intros H. split; [exact H|]. intros a _. exact I.
Qed.
Lemma read_text_ok f P v s : exactly f P -> read_text f v = Ok s <-> string_val v s /\ P s.
Proof.
  intros [H _]. unfold read_text, string_val. rewrite bind_ok. split.
  - intros (x & E & X). apply unwrap_string_ok in E. apply vop_ok, H in X as [-> X]. auto.
  - intros [-> X]. exists s. split; [reflexivity|]. apply vop_ok, H. auto.
Qed.
(** A field and what is read from it *)
Lemma field_ok {A} f v (k : StrictVal -> result StlError A) (a : A) :
  (let! x := unwrap_struct (fld f) v in k x) = Ok a <-> exists x, has v f x /\ k x = Ok a.
Proof. rewrite bind_ok. unfold fld. setoid_rewrite unwrap_struct_ok. reflexivity. Qed.
Lemma string_field f v s : (let! x := unwrap_struct (fld f) v in unwrap_string x) = Ok s <-> has v f (VString s).
Proof.
  rewrite field_ok. setoid_rewrite unwrap_string_ok. split; [intros (x & H & ->); exact H|intros H; eauto].
Qed.
Lemma bytes_field f v s : (let! x := unwrap_struct (fld f) v in unwrap_bytes x) = Ok s <-> has v f (VBytes s).
Proof.
  rewrite field_ok. setoid_rewrite unwrap_bytes_ok. split; [intros (x & H & ->); exact H|intros H; eauto].
Qed.
Lemma has_fun v f x y : has v f x -> has v f y -> x = y.
Proof. intros Hx Hy. apply unwrap_struct_ok in Hx, Hy. congruence. Qed.

Arguments fld : simpl never.
Ltac conj := unfold is_asset, is_contract, is_media, holds_asset, holds_contract, holds_media; repeat match goal with |- _ /\ _ => split end.
Ltac bind_in H := apply bind_ok in H; let x := fresh "x" in let E := fresh "E" in destruct H as (x & E & H).
Lemma asset_from_ok v s : asset_from v = Ok s <-> holds_asset v s /\ is_asset s.
Proof.
  unfold asset_from. split.
  - intros H. bind_in H. bind_in H. bind_in H. bind_in H. bind_in H. bind_in H. bind_in H. apply Ok_inj in H. subst s.
    apply string_field in E, E0. apply field_ok in E1 as (d & E1 & D). apply opt_string_ok in D.
    apply field_ok in E2 as (p & E2 & P). apply unwrap_precision_ok in P. subst p.
    apply vop_ok, ticker_spec in E3 as [-> E3]. apply vop_ok, name_spec in E4 as [-> E4]. apply vop_ok, opt_details_spec in E5 as [-> E5].
    split; [|conj; cbn; assumption]. conj; cbn; try assumption. exists d. auto.
  - intros ((H1 & H2 & (d & H3 & D) & H4) & I1 & I2 & I3). destruct s as [t n d0 p]; cbn in *.
    apply bind_ok. exists t. split; [apply string_field; exact H1|].
    apply bind_ok. exists n. split; [apply string_field; exact H2|].
    apply bind_ok. exists d0. split; [apply field_ok; exists d; split; [exact H3|apply opt_string_ok; exact D]|].
    apply bind_ok. exists p. split; [apply field_ok; eexists; split; [exact H4|apply unwrap_precision_ok; reflexivity]|].
    rewrite (proj2 (vop_ok _ _) (proj2 (proj1 ticker_spec t t) (conj eq_refl I1))).
    cbn [rbind]. rewrite (proj2 (vop_ok _ _) (proj2 (proj1 name_spec n n) (conj eq_refl I2))).
    cbn [rbind]. rewrite (proj2 (vop_ok _ _) (proj2 (opt_details_spec d0 d0) (conj eq_refl I3))). reflexivity.
Qed.
Lemma contract_from_ok v s : contract_from v = Ok s <-> holds_contract v s /\ is_contract s.
Proof.
  unfold contract_from.
  assert (A : forall x o, (let! a := unwrap_option x in match a with None => Ok None | Some x => rmap Some (read_text article_of x) end) = Ok o <->
                optional string_val x o /\ if_any is_article o).
  { intros x o. apply opt_val_ok. intros y a. apply read_text_ok, article_spec. }
  split.
  - intros H. bind_in H. bind_in H. bind_in H. bind_in H. bind_in H. bind_in H. bind_in H. apply Ok_inj in H. subst s.
    apply field_ok in E as (a & E & Ea). apply string_field in E0. apply field_ok in E1 as (d & E1 & D). apply opt_string_ok in D.
    apply field_ok in E2 as (p & E2 & P). apply unwrap_precision_ok in P. subst p.
    assert (E3' : optional string_val a x3 /\ if_any is_article x3) by (apply A; rewrite Ea; exact E3). destruct E3' as [A1 A2].
    apply vop_ok, name_spec in E4 as [-> E4]. apply vop_ok, opt_details_spec in E5 as [-> E5].
    split; [|conj; cbn; assumption]. conj; cbn; try assumption; eauto.
  - intros (((a & Ha & Oa) & H2 & (d & H3 & D) & H4) & I1 & I2 & I3). destruct s as [ar n d0 p]; cbn in *.
    pose proof (proj2 (A a ar) (conj Oa I1)) as X. apply bind_ok in X as (oa & X1 & X2).
    apply bind_ok. exists oa. split; [apply field_ok; exists a; auto|].
    apply bind_ok. exists n. split; [apply string_field; exact H2|].
    apply bind_ok. exists d0. split; [apply field_ok; exists d; split; [exact H3|apply opt_string_ok; exact D]|].
    apply bind_ok. exists p. split; [apply field_ok; eexists; split; [exact H4|apply unwrap_precision_ok; reflexivity]|].
    rewrite X2. cbn [rbind]. rewrite (proj2 (vop_ok _ _) (proj2 (proj1 name_spec n n) (conj eq_refl I2))).
    cbn [rbind]. rewrite (proj2 (vop_ok _ _) (proj2 (opt_details_spec d0 d0) (conj eq_refl I3))). reflexivity.
Qed.
Lemma media_from_ok v m : media_from v = Ok m <-> holds_media v m /\ is_media m.
Proof.
  unfold media_from.
  assert (A : forall x o, opt_val (read_text reg_name_of) x = Ok o <-> optional string_val x o /\ if_any is_media_name o).
  { intros x o. apply opt_val_ok. intros y a. apply read_text_ok, reg_name_spec. }
  split.
  - intros H. bind_in H. bind_in H. bind_in H. apply Ok_inj in H. subst m.
    apply field_ok in E as (t & E & Et). apply (read_text_ok _ _ _ _ reg_name_spec) in Et as [-> It].
    apply field_ok in E0 as (s & E0 & Es). apply A in Es as [Es Is]. apply field_ok in E1 as (c & E1 & Ec). apply A in Ec as [Ec Ic].
    split; [|conj; cbn; assumption]. conj; cbn; eauto.
  - intros ((H1 & (s & Hs & Os) & (c & Hc & Oc)) & I1 & I2 & I3). destruct m as [t st ct]; cbn in *.
    apply bind_ok. exists t. split; [apply field_ok; eexists; split; [exact H1|apply (read_text_ok _ _ _ _ reg_name_spec); split; [reflexivity|exact I1]]|].
    apply bind_ok. exists st. split; [apply field_ok; exists s; split; [exact Hs|apply A; auto]|].
    apply bind_ok. exists ct. split; [apply field_ok; exists c; split; [exact Hc|apply A; auto]|]. reflexivity.
Qed.
Lemma attachment_from_ok v a : attachment_from v = Ok a <-> holds_attachment v a /\ is_attachment a.
Proof.
  unfold attachment_from. split.
  - intros H. bind_in H. bind_in H. destruct (N.eqb_spec (len x0) 32) as [L|]; [|discriminate H]. apply Ok_inj in H. subst a.
    apply field_ok in E as (t & E & Et). apply media_from_ok in Et as [Et It]. apply bytes_field in E0.
    split; [|split; cbn; assumption]. split; cbn; eauto.
  - intros (((t & Ht & Mt) & H2) & I1 & I2). destruct a as [ty d]; cbn in *.
    apply bind_ok. exists ty. split; [apply field_ok; exists t; split; [exact Ht|apply media_from_ok; auto]|].
    apply bind_ok. exists d. split; [apply bytes_field; exact H2|]. rewrite I2. reflexivity.
Qed.
Lemma terms_from_ok v t : terms_from v = Ok t <-> holds_terms v t /\ is_terms t.
Proof.
  unfold terms_from. split.
  - intros H. bind_in H. bind_in H. apply Ok_inj in H. subst t.
    apply field_ok in E as (t & E & Et). apply (read_text_ok _ _ _ _ ricardian_spec) in Et as [-> It].
    apply field_ok in E0 as (m & E0 & Em). apply (opt_val_ok _ _ _ _ _ attachment_from_ok) in Em as [Em Im].
    split; [|split; cbn; assumption]. split; cbn; eauto.
  - intros ((H1 & (m & Hm & Om)) & I1 & I2). destruct t as [tx md]; cbn in *.
    apply bind_ok. exists tx. split; [apply field_ok; eexists; split; [exact H1|apply (read_text_ok _ _ _ _ ricardian_spec); split; [reflexivity|exact I1]]|].
    apply bind_ok. exists md. split; [apply field_ok; exists m; split; [exact Hm|apply (opt_val_ok _ _ _ _ _ attachment_from_ok); auto]|]. reflexivity.
Qed.
Lemma reserves_from_ok v r : reserves_from v = Ok r <-> holds_reserves v r /\ is_reserves r.
Proof.
  unfold reserves_from. change U32MAX with 4294967295. change U16MAX with 65535. split.
  - intros H. bind_in H. bind_in H. bind_in H. bind_in H. bind_in H.
    destruct (N.eqb_spec (len x0) 32) as [L|]; [|discriminate E1]. apply Ok_inj in E1. subst x1.
    destruct (N.leb_spec (len x3) 65535) as [L2|]; [|discriminate H]. apply Ok_inj in H. subst r.
    apply unwrap_struct_ok in E. apply bytes_field in E0, E3. apply field_ok in E2 as (o & E2 & Eo). apply unwrap_uint_ok in Eo as [-> Lo].
    split; [|split; [|split]; cbn; assumption]. split; cbn; eauto.
  - intros (((u & Hu & Ht & Hv) & Hp) & I1 & I2 & I3). destruct r as [t o p]; cbn in *.
    apply bind_ok. exists u. split; [apply unwrap_struct_ok; exact Hu|].
    apply bind_ok. exists t. split; [apply bytes_field; exact Ht|]. rewrite I1. cbn [N.eqb rbind].
    apply bind_ok. exists t. split; [reflexivity|].
    apply bind_ok. exists o. split; [apply field_ok; eexists; split; [exact Hv|apply unwrap_uint_ok; auto]|].
    apply bind_ok. exists p. split; [apply bytes_field; exact Hp|]. apply N.leb_le in I3. rewrite I3. reflexivity.
Qed.

(** ** Reading never gives an error: it panics *)
Definition no_err {A} (r : result StlError A) : Prop := forall e, r <> Err e.
Lemma no_err_bind {A B} (e : result StlError A) (k : A -> result StlError B) :
  no_err e -> (forall x, no_err (k x)) -> no_err (let! x := e in k x).
Proof. intros H1 H2. destruct e as [a|e|]; cbn; [apply H2|exfalso; apply (H1 e); reflexivity|intros ?; discriminate]. Qed.
Lemma no_err_ok {A} (a : A) : no_err (Ok a).
Proof. intros e. discriminate. Qed.
Lemma no_err_panic {A} : no_err (Panic : result StlError A).
Proof. intros e. discriminate. Qed.
Lemma no_err_rmap {A} (r : result StlError A) : no_err r -> no_err (rmap Some r).
Proof. intros H. destruct r as [a|y|]; cbn; intros x X; try discriminate X. apply (H y). reflexivity. Qed.
Lemma no_err_vop {A} (r : result StlError A) : no_err (valid_or_panic r).
Proof. destruct r as [a|y|]; intros e; discriminate. Qed.
Lemma no_err_field f v : no_err (unwrap_struct f v).
Proof. destruct v; intros e; try discriminate. cbn. destruct (find _ _); discriminate. Qed.
Lemma no_err_string v : no_err (unwrap_string v).
Proof. destruct v; intros e; discriminate. Qed.
Lemma no_err_bytes v : no_err (unwrap_bytes v).
Proof. destruct v; intros e; discriminate. Qed.
Lemma no_err_option v : no_err (unwrap_option v).
Proof. destruct v; intros e; discriminate. Qed.
Lemma no_err_precision v : no_err (unwrap_precision v).
Proof. destruct v; intros e; try discriminate. cbn. destruct (precision_of_u8 n); discriminate. Qed.
Lemma no_err_uint m v : no_err (unwrap_uint m v).
Proof. destruct v; intros e; try discriminate. cbn. destruct (n <=? m); discriminate. Qed.
Lemma no_err_read f v : no_err (read_text f v).
Proof. apply no_err_bind; [apply no_err_string|intros x; apply no_err_vop]. Qed.
Lemma no_err_opt {A} (f : StrictVal -> result StlError A) v : (forall x, no_err (f x)) -> no_err (opt_val f v).
Proof. intros H. apply no_err_bind; [apply no_err_option|]. intros [x|]; [apply no_err_rmap, H|apply no_err_ok]. Qed.
Ltac no_errs :=
  repeat first [apply no_err_opt; intros ? | apply no_err_read | apply no_err_vop | apply no_err_bind; [|intros ?] | apply no_err_field | apply no_err_string | apply no_err_bytes | apply no_err_option
               | apply no_err_precision | apply no_err_uint | apply no_err_ok | apply no_err_panic ].
Lemma asset_from_no_err v : no_err (asset_from v).
Proof. unfold asset_from. no_errs. Qed.
Lemma contract_from_no_err v : no_err (contract_from v).
Proof. unfold contract_from. no_errs. destruct x as [x|]; [apply no_err_rmap|]; no_errs. Qed.
Lemma media_from_no_err v : no_err (media_from v).
Proof. unfold media_from. no_errs. Qed.
Lemma attachment_from_no_err v : no_err (attachment_from v).
Proof. unfold attachment_from. no_errs. destruct (len _ =? 32); no_errs. Qed.
Lemma terms_from_no_err v : no_err (terms_from v).
Proof. unfold terms_from. no_errs. destruct (len _ =? 32); no_errs. Qed.
Lemma reserves_from_no_err v : no_err (reserves_from v).
Proof. unfold reserves_from. no_errs; [destruct (len _ =? 32)|destruct (len _ <=? _)]; no_errs. Qed.

(** ** Tickers *)
Fixpoint pairs_of (a b : str) : list (ascii * ascii) :=
  match a, b with x :: a', y :: b' => (x, y) :: pairs_of a' b' | _, _ => [] end.
Definition case_pairb (x y : ascii) : bool := existsb (fun p => is_char x (fst p) && is_char y (snd p)) (combine capitals smalls).
Lemma in_combine_nth {A B} (l : list A) (m : list B) x y :
  In (x, y) (combine l m) <-> exists k, nth_error l k = Some x /\ nth_error m k = Some y.
Proof.
  revert m. induction l as [|a l IH]; intros m.
  - cbn. split; [intros []|]. intros ([|k] & E & _); discriminate E.
  - destruct m as [|b m]; cbn [combine In].
    + split; [intros []|]. intros ([|k] & _ & E); discriminate E.
    + rewrite IH. split.
      * intros [E|(k & E1 & E2)]; [injection E as -> ->; exists 0%nat; auto|exists (S k); auto].
      * intros ([|k] & E1 & E2); cbn in E1, E2; [left; congruence|right; eauto].
Qed.
Lemma case_pairb_spec x y : case_pairb x y = true <-> case_pair x y.
Proof.
  unfold case_pairb, case_pair. rewrite <- in_combine_nth, existsb_exists. split.
  - intros ([a b] & Hin & E). apply andb_true_iff in E as [E1 E2]. apply is_char_eq in E1, E2. cbn in E1, E2. subst. exact Hin.
  - intros Hin. exists (x, y). split; [exact Hin|]. cbn. rewrite !is_char_refl. reflexivity.
Qed.
Lemma upper_same x y : ascii_upper x = ascii_upper y <-> same_char x y.
Proof.
  assert (H : forall x, (fun x => forallb (fun y => Bool.eqb (is_char (ascii_upper x) (ascii_upper y))
            (is_char x y || (case_pairb x y || case_pairb y x))) all_chars) x = true) by (apply by_all; vm_compute; reflexivity).
  pose proof (by_all _ (H x) y) as E. cbn beta in E. apply Bool.eqb_prop in E.
  unfold same_char. rewrite <- is_char_eq, E, !orb_true_iff, is_char_eq, !case_pairb_spec. reflexivity.
Qed.
Lemma ticker_eq_spec a b : ticker_eq a b = true <-> same_text a b.
Proof.
  unfold ticker_eq, uppercase, same_text. rewrite streqb_eq. revert b. induction a as [|x a IH]; intros [|y b]; cbn [map].
  - split; [constructor|reflexivity].
  - split; [discriminate|intros H; inversion H].
  - split; [discriminate|intros H; inversion H].
  - split.
    + intros E. injection E as E1 E2. constructor; [apply upper_same; exact E1|apply IH; exact E2].
    + intros H. inversion H as [|? ? ? ? H1 H2]. f_equal; [apply upper_same; exact H1|apply IH; exact H2].
Qed.
Lemma str_cmp_eq a b : str_cmp a b = Eq <-> a = b.
Proof.
  revert b. induction a as [|x a IH]; intros [|y b]; cbn [str_cmp]; try (split; [discriminate|intros E; discriminate E]); [tauto|].
  destruct (N.compare_spec (N_of_ascii x) (N_of_ascii y)) as [E|E|E].
  - rewrite IH. split; [intros ->|intros X; injection X as _ ->; reflexivity]. f_equal.
    rewrite <- (ascii_N_embedding x), <- (ascii_N_embedding y). f_equal. exact E.
  - split; [discriminate|]. intros X. injection X as -> ->. lia.
  - split; [discriminate|]. intros X. injection X as -> ->. lia.
Qed.
Lemma str_cmp_opp a b : str_cmp b a = CompOpp (str_cmp a b).
Proof.
  revert b. induction a as [|x a IH]; intros [|y b]; cbn [str_cmp]; try reflexivity.
  rewrite (N.compare_antisym (N_of_ascii x) (N_of_ascii y)). destruct (N_of_ascii x ?= N_of_ascii y); cbn; auto.
Qed.
Lemma str_cmp_trans a b c : str_cmp a b = Lt -> str_cmp b c = Lt -> str_cmp a c = Lt.
Proof.
  revert b c. induction a as [|x a IH]; intros [|y b] [|z c]; cbn [str_cmp]; try discriminate; try reflexivity.
  destruct (N.compare_spec (N_of_ascii x) (N_of_ascii y)) as [E|E|E]; try discriminate;
    destruct (N.compare_spec (N_of_ascii y) (N_of_ascii z)) as [F|F|F]; try discriminate;
    destruct (N.compare_spec (N_of_ascii x) (N_of_ascii z)) as [G|G|G]; intros H1 H2; try reflexivity; try lia.
  apply (IH b); assumption.
Qed.
Lemma upper_id c : ~ In c smalls -> ascii_upper c = c.
Proof.
  intros Hn. rewrite <- alpha_small_spec in Hn. unfold alpha_small, between in Hn. unfold ascii_upper.
  destruct ((97 <=? N_of_ascii c) && (N_of_ascii c <=? 122)); [exfalso; apply Hn; reflexivity|reflexivity].
Qed.
Lemma uppercase_id a : no_smalls a -> uppercase a = a.
Proof.
  unfold no_smalls, uppercase. induction a as [|c a IH]; intros H; cbn [map]; [reflexivity|].
  rewrite upper_id by (apply H; left; reflexivity). f_equal. apply IH. intros d Hd. apply H. right. exact Hd.
Qed.

(** ** Media types *)
Lemma split_once_spec c s a b : split_once c s = Some (a, b) <-> s = a ++ c :: b /\ ~ In c a.
Proof.
  revert a b. induction s as [|x s IH]; intros a b; cbn [split_once].
  - split; [discriminate|]. intros [E _]. destruct a; discriminate E.
  - destruct (is_char x c) eqn:E.
    + apply is_char_eq in E. subst x. split.
      * intros X. apply Some_inj in X. injection X as <- <-. split; [reflexivity|intros []].
      * intros [X Hn]. destruct a as [|y a]; cbn [app] in X; [injection X as <-; reflexivity|injection X as X1 X2].
        exfalso. apply Hn. left. symmetry. exact X1.
    + apply is_char_false in E. split.
      * destruct (split_once c s) as [[a' b']|] eqn:Es; [|discriminate]. intros X. apply Some_inj in X. injection X as <- <-.
        destruct (proj1 (IH a' b') eq_refl) as [-> Hn]. split; [reflexivity|]. intros [X|X]; [congruence|apply Hn; exact X].
      * intros [X Hn]. destruct a as [|y a]; cbn [app] in X; injection X as X1 X2; [congruence|]. subst y.
        rewrite (proj2 (IH a b)); [reflexivity|]. split; [exact X2|]. intros X. apply Hn. right. exact X.
Qed.
Lemma media_name_chars s d : is_media_name s -> In d s -> In d media_chars.
Proof.
  intros ((c & s' & -> & Hc & Hs) & _) [<-|Hd].
  - unfold media_chars. apply in_or_app. left. exact Hc.
  - rewrite Forall_forall in Hs. apply Hs. exact Hd.
Qed.
Lemma slash_no s : is_media_name s -> ~ In (ch "/"%string) s.
Proof. intros H X. pose proof (media_name_chars _ _ H X) as Y. apply mime_char_spec in Y. vm_compute in Y. discriminate Y. Qed.
Lemma star_no : ~ is_media_name (lit "*"%string).
Proof. intros H. pose proof (media_name_chars _ _ H (or_introl eq_refl)) as Y. apply mime_char_spec in Y. vm_compute in Y. discriminate Y. Qed.
Lemma media_with_spec s m : media_with s = Ok m <-> is_media m /\ mt_charset m = None /\ s = media_display m.
Proof.
  unfold media_with, media_display. split.
  - destruct (split_once (ch "/"%string) s) as [[ty sub]|] eqn:Es; [|discriminate]. apply split_once_spec in Es as [-> Hn].
    intros H. bind_in H. bind_in H. apply Ok_inj in H. subst m. cbn. apply vop_ok, reg_name_spec in E as [-> E].
    destruct (streqb sub (lit "*"%string)) eqn:Est.
    + apply streqb_eq in Est. apply Ok_inj in E0. subst. split; [|auto]. split; [exact E|]. split; intros ? X; discriminate X.
    + apply rmap_some in E0 as (a & -> & E0). apply vop_ok, reg_name_spec in E0 as [-> E0].
      split; [|auto]. split; [exact E|]. split; [intros x X; apply Some_inj in X; subst; exact E0|intros ? X; discriminate X].
  - intros ((I1 & I2 & I3) & Hc & ->). destruct m as [ty sub cs]; cbn in *. subst cs.
    pose (rest := match sub with Some s => s | None => lit "*"%string end).
    assert (X : split_once (ch "/"%string) (ty ++ ch "/"%string :: rest) = Some (ty, rest))
      by (apply split_once_spec; split; [reflexivity|apply slash_no; exact I1]).
    match goal with |- context [split_once ?c ?s] => replace (split_once c s) with (Some (ty, rest)) by (symmetry; exact X) end.
    clear X. subst rest.
    rewrite (proj2 (vop_ok _ _) (proj2 (proj1 reg_name_spec ty ty) (conj eq_refl I1))). cbn [rbind].
    destruct sub as [sub|]; [|reflexivity].
    destruct (streqb sub (lit "*"%string)) eqn:E; [apply streqb_eq in E; subst; exfalso; apply star_no, I2; reflexivity|].
    rewrite (proj2 (vop_ok _ _) (proj2 (proj1 reg_name_spec sub sub) (conj eq_refl (I2 _ eq_refl)))).
    change ["*"%char] with (lit "*"%string). rewrite E. reflexivity.
Qed.
