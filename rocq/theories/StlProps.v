(** * C51, C52, C58: tickers, media types, contract data *)
From Coq Require Import Ascii String.
From Verif Require Import Base Str AmountModel StlModel StlSpec StlProofs.
Local Open Scope list_scope. Local Open Scope N_scope.

(** ** C51: comparison of tickers *)

(** Tickers are equal exactly if they are the same text up to the case of letters. *)
Theorem C51_equal : forall a b, ticker_eq a b = true <-> same_text a b.
Proof. exact ticker_eq_spec. Qed.

Theorem C51_equivalence :
  (forall a, ticker_eq a a = true) /\ (forall a b, ticker_eq a b = true -> ticker_eq b a = true) /\
  (forall a b c, ticker_eq a b = true -> ticker_eq b c = true -> ticker_eq a c = true).
Proof.
  unfold ticker_eq. repeat split.
  - intros a. apply streqb_refl.
  - intros a b. rewrite !streqb_eq. auto.
  - intros a b c. rewrite !streqb_eq. congruence.
Qed.

(** Tickers are equal exactly if their hashes are equal whatever the hasher is. *)
Theorem C51_hash : forall a b, ticker_eq a b = true <-> forall hasher, ticker_hash hasher a = ticker_hash hasher b.
Proof.
  intros a b. unfold ticker_eq, ticker_hash. rewrite streqb_eq. split; [intros -> hasher; reflexivity|].
  intros H. specialize (H (fun s => if streqb s (uppercase a) then 1 else 0)). cbn beta in H. rewrite streqb_refl in H.
  destruct (streqb (uppercase b) (uppercase a)) eqn:E; [apply streqb_eq in E; auto|discriminate H].
Qed.

(** The order is a total order of the spelled text. *)
Theorem C51_order : (forall a b, ticker_cmp a b = Eq <-> a = b) /\ (forall a b, ticker_cmp b a = CompOpp (ticker_cmp a b)) /\
  (forall a b c, ticker_cmp a b = Lt -> ticker_cmp b c = Lt -> ticker_cmp a c = Lt).
Proof. split; [exact str_cmp_eq|]. split; [exact str_cmp_opp|exact str_cmp_trans]. Qed.

(** Tickers not ordered before or after each other are equal; the converse needs text
    without small letters. *)
Theorem C51_coherent_partial : forall a b,
  (ticker_cmp a b = Eq -> ticker_eq a b = true) /\
  (no_smalls a -> no_smalls b -> ticker_eq a b = true -> ticker_cmp a b = Eq).
Proof.
  intros a b. split.
  - intros H. apply str_cmp_eq in H. subst. apply (proj1 C51_equivalence).
  - intros Ha Hb H. unfold ticker_eq in H. rewrite (uppercase_id a Ha), (uppercase_id b Hb), streqb_eq in H. subst.
    apply str_cmp_eq. reflexivity.
Qed.
Example C51_nonvacuous : exists a b, ticker_of a = Ok a /\ ticker_of b = Ok b /\ no_smalls a /\ no_smalls b /\
  ticker_eq a b = false /\ ticker_cmp a b = Lt /\ ticker_eq a (lit "usDt"%string) = true.
Proof.
  exists (lit "USDT"%string), (lit "USDT2"%string).
  assert (N : forall s, forallb (fun c => negb (alpha_small c)) s = true -> no_smalls s).
  { intros s H c Hc X. rewrite forallb_forall in H. specialize (H c Hc). apply alpha_small_spec in X. rewrite X in H. discriminate H. }
  repeat split; try (apply N); reflexivity.
Qed.
(** As stated the property fails: equal tickers are ordered. *)
Theorem C51_refuted : ~ (forall a b, ticker_of a = Ok a -> ticker_of b = Ok b -> ticker_eq a b = true -> ticker_cmp a b = Eq).
Proof.
  intros H. specialize (H (lit "USDT"%string) (lit "usdt"%string) eq_refl eq_refl eq_refl). discriminate H.
Qed.

(** ** C52: text of media types *)

(** The texts read are exactly those printed, and give the type printed; others panic. *)
Theorem C52_read : forall s,
  (forall m, media_with s = Ok m <-> is_media m /\ mt_charset m = None /\ s = media_display m) /\
  ((forall m, is_media m -> s <> media_display m) <-> media_with s = Panic).
Proof.
  intros s. split; [intros m; apply media_with_spec|]. split.
  - intros H. destruct (media_with s) as [m|e|] eqn:E; [|exfalso|reflexivity].
    + apply media_with_spec in E as (Hm & _ & E). exfalso. exact (H m Hm E).
    + revert E. unfold media_with. destruct (split_once _ _) as [[ty sub]|]; [|discriminate]. clear H.
      change (~ ((let! t := valid_or_panic (reg_name_of ty) in
                  let! st := (if streqb sub (lit "*"%string) then Ok None else rmap Some (valid_or_panic (reg_name_of sub))) in
                  Ok {| mt_ty := t; mt_subtype := st; mt_charset := None |}) = Err e)).
      revert e. apply no_err_bind; [apply no_err_vop|]. intros t. apply no_err_bind; [|intros st; apply no_err_ok].
      destruct (streqb _ _); [apply no_err_ok|apply no_err_rmap, no_err_vop].
  - intros E m (I1 & I2 & I3) ->.
    rewrite (proj2 (media_with_spec _ {| mt_ty := mt_ty m; mt_subtype := mt_subtype m; mt_charset := None |})) in E; [discriminate E|].
    split; [split; [exact I1|split; [exact I2|intros ? X; discriminate X]]|]. split; reflexivity.
Qed.

Theorem C52_round_trip : forall m, is_media m ->
  exists m', media_with (media_display m) = Ok m' /\ mt_ty m' = mt_ty m /\ mt_subtype m' = mt_subtype m.
Proof.
  intros m (I1 & I2 & I3). exists {| mt_ty := mt_ty m; mt_subtype := mt_subtype m; mt_charset := None |}.
  split; [|split; reflexivity]. apply media_with_spec.
  split; [split; [exact I1|split; [exact I2|intros ? X; discriminate X]]|]. split; reflexivity.
Qed.

(** The text tells media types apart, but for the character set. *)
Theorem C52_distinct : forall m m', is_media m -> is_media m' -> media_display m = media_display m' ->
  mt_ty m = mt_ty m' /\ mt_subtype m = mt_subtype m'.
Proof.
  intros m m' H H' E. destruct (C52_round_trip m H) as (x & X & X1 & X2), (C52_round_trip m' H') as (y & Y & Y1 & Y2).
  rewrite E in X. rewrite X in Y. apply Ok_inj in Y. subst y. split; congruence.
Qed.

Definition stl_media (c : option str) : MediaType := {| mt_ty := lit "text"%string; mt_subtype := Some (lit "plain"%string); mt_charset := c |}.
Lemma reg_name_ok s : reg_name_of s = Ok s -> is_media_name s.
Proof. intros E. apply (proj1 reg_name_spec) in E. apply E. Qed.
Lemma stl_media_ok c : if_any is_media_name c -> is_media (stl_media c).
Proof.
  intros H. split; [|split; [intros s X; apply Some_inj in X; subst s|exact H]]; apply reg_name_ok; reflexivity.
Qed.
Example C52_nonvacuous : is_media (stl_media (Some (lit "utf-8"%string))) /\
  media_display (stl_media (Some (lit "utf-8"%string))) = lit "text/plain"%string /\
  media_with (lit "text/plain"%string) = Ok (stl_media None) /\
  media_with (lit "image/*"%string) = Ok {| mt_ty := lit "image"%string; mt_subtype := None; mt_charset := None |} /\
  media_with (lit "text/a/b"%string) = Panic /\ media_with (lit "text"%string) = Panic.
Proof.
  split; [apply stl_media_ok; intros s X; apply Some_inj in X; subst s; apply reg_name_ok; reflexivity|].
  repeat split; reflexivity.
Qed.
(** The character set is lost. *)
Theorem C52_charset_refuted : ~ (forall m, is_media m -> media_with (media_display m) = Ok m).
Proof.
  intros H. destruct C52_nonvacuous as (X & _). specialize (H _ X). vm_compute in H. discriminate H.
Qed.

(** ** C58: specifications, terms and reserves *)

(** A specification is made exactly of valid texts, and holds the texts given. *)
Theorem C58_asset : forall ticker name p details,
  (forall s, asset_with ticker name p details = Ok s <->
     s = {| as_ticker := ticker; as_name := name; as_details := details; as_precision := p |} /\ is_asset s) /\
  asset_with ticker name p details <> Panic /\
  (forall s, asset_new ticker name p = Ok s <->
     s = {| as_ticker := ticker; as_name := name; as_details := None; as_precision := p |} /\ is_asset s).
Proof.
  intros t n p d. split; [|split].
  - intros s. unfold asset_with. split.
    + intros H. bind_in H. bind_in H. bind_in H. apply Ok_inj in H. subst s.
      apply ticker_spec in E as [-> E]. apply name_spec in E0 as [-> E0]. apply opt_details_spec in E1 as [-> E1].
      split; [reflexivity|conj; assumption].
    + intros [-> (I1 & I2 & I3)]. cbn in I1, I2, I3. rewrite (proj2 (proj1 ticker_spec t t) (conj eq_refl I1)). cbn [rbind].
      rewrite (proj2 (proj1 name_spec n n) (conj eq_refl I2)). cbn [rbind]. rewrite (proj2 (opt_details_spec d d) (conj eq_refl I3)). reflexivity.
  - unfold asset_with. pose proof (proj2 ticker_spec t). pose proof (proj2 name_spec n). pose proof (opt_details_no_panic d).
    destruct (ticker_of t), (name_of_text n), (opt_details d); cbn; congruence.
  - intros s. unfold asset_new. split.
    + intros H. bind_in H. bind_in H. apply Ok_inj in H. subst s.
      apply vop_ok, ticker_spec in E as [-> E]. apply vop_ok, name_spec in E0 as [-> E0].
      split; [reflexivity|]. conj; cbn; try assumption. intros ? X. discriminate X.
    + intros [-> (I1 & I2 & I3)]. cbn in I1, I2, I3. rewrite (proj2 (proj1 ticker_spec t t) (conj eq_refl I1)).
      rewrite (proj2 (proj1 name_spec n n) (conj eq_refl I2)). reflexivity.
Qed.
Theorem C58_contract : forall article name p details,
  (forall s, contract_with article name p details = Ok s <->
     s = {| sp_article := Some article; sp_name := name; sp_details := details; sp_precision := p |} /\ is_contract s) /\
  contract_with article name p details <> Panic /\
  (forall s, contract_new name p = Ok s <->
     s = {| sp_article := None; sp_name := name; sp_details := None; sp_precision := p |} /\ is_contract s).
Proof.
  intros t n p d. split; [|split].
  - intros s. unfold contract_with. split.
    + intros H. bind_in H. bind_in H. bind_in H. apply Ok_inj in H. subst s.
      apply article_spec in E as [-> E]. apply name_spec in E0 as [-> E0]. apply opt_details_spec in E1 as [-> E1].
      split; [reflexivity|conj; try assumption]. cbn. intros x X. apply Some_inj in X. subst. exact E.
    + intros [-> (I1 & I2 & I3)]. cbn in I1, I2, I3. specialize (I1 _ eq_refl). rewrite (proj2 (proj1 article_spec t t) (conj eq_refl I1)). cbn [rbind].
      rewrite (proj2 (proj1 name_spec n n) (conj eq_refl I2)). cbn [rbind]. rewrite (proj2 (opt_details_spec d d) (conj eq_refl I3)). reflexivity.
  - unfold contract_with. pose proof (proj2 article_spec t). pose proof (proj2 name_spec n). pose proof (opt_details_no_panic d).
    destruct (article_of t), (name_of_text n), (opt_details d); cbn; congruence.
  - intros s. unfold contract_new. split.
    + intros H. bind_in H. apply Ok_inj in H. subst s. apply vop_ok, name_spec in E as [-> E0].
      split; [reflexivity|]. conj; cbn; try assumption; intros ? X; discriminate X.
    + intros [-> (I1 & I2 & I3)]. cbn in I2. rewrite (proj2 (proj1 name_spec n n) (conj eq_refl I2)). reflexivity.
Qed.

(** Reading contract data gives exactly the valid data held in the value, and no other
    outcome but a panic. *)
Theorem C58_read :
  (forall v s, asset_from v = Ok s <-> holds_asset v s /\ is_asset s) /\
  (forall v s, contract_from v = Ok s <-> holds_contract v s /\ is_contract s) /\
  (forall v m, media_from v = Ok m <-> holds_media v m /\ is_media m) /\
  (forall v t, terms_from v = Ok t <-> holds_terms v t /\ is_terms t) /\
  (forall v r, reserves_from v = Ok r <-> holds_reserves v r /\ is_reserves r) /\
  (forall v e, asset_from v <> Err e /\ contract_from v <> Err e /\ media_from v <> Err e /\ terms_from v <> Err e /\ reserves_from v <> Err e).
Proof.
  split; [exact asset_from_ok|]. split; [exact contract_from_ok|]. split; [exact media_from_ok|].
  split; [exact terms_from_ok|]. split; [exact reserves_from_ok|]. intros v e.
  repeat split; [apply asset_from_no_err|apply contract_from_no_err|apply media_from_no_err|apply terms_from_no_err|apply reserves_from_no_err].
Qed.

(** So no value is read in two ways. *)
Theorem C58_unique : forall v s s', holds_asset v s -> holds_asset v s' -> s = s'.
Proof.
  intros v [t n d p] [t' n' d' p'] (H1 & H2 & (x & H3 & D) & H4) (H1' & H2' & (x' & H3' & D') & H4'); cbn in *.
  pose proof (has_fun _ _ _ _ H1 H1') as E1. injection E1 as <-. pose proof (has_fun _ _ _ _ H2 H2') as E2. injection E2 as <-.
  rewrite (has_fun _ _ _ _ H3 H3') in D. apply opt_string_ok in D, D'. rewrite D in D'. apply Ok_inj in D'. subst d'.
  pose proof (has_fun _ _ _ _ H4 H4') as E4. injection E4 as E4. destruct p, p'; cbn in E4; try discriminate E4; reflexivity.
Qed.

Definition stl_val : StrictVal :=
  VStruct [(lit "ticker"%string, VString (lit "USDT"%string)); (lit "name"%string, VString (lit "US dollar tether"%string));
           (lit "details"%string, VSome (VString (lit "Pegged"%string))); (lit "precision"%string, VEnum 8)].
Definition stl_terms : StrictVal :=
  VStruct [(lit "text"%string, VString (lit "Terms"%string));
           (lit "media"%string, VSome (VStruct
             [(lit "type"%string, VStruct [(lit "type"%string, VString (lit "text"%string)); (lit "subtype"%string, VNone); (lit "charset"%string, VSome (VString (lit "utf-8"%string)))]);
              (lit "digest"%string, VBytes (repeat 7 32))]))].
Definition stl_reserves : StrictVal :=
  VStruct [(lit "utxo"%string, VStruct [(lit "txid"%string, VBytes (repeat 3 32)); (lit "vout"%string, VUint 1)]); (lit "proof"%string, VBytes [1; 2])].
Example C58_nonvacuous :
  asset_from stl_val = asset_with (lit "USDT"%string) (lit "US dollar tether"%string) CentiMicro (Some (lit "Pegged"%string)) /\
  is_ok (asset_from stl_val) = true /\ is_ok (terms_from stl_terms) = true /\ is_ok (reserves_from stl_reserves) = true /\
  asset_with (lit "1USD"%string) (lit "x"%string) Centi None = Err InvalidRString /\
  asset_with (lit "USD"%string) (lit "x"%string) Centi (Some []) = Err InvalidRString /\
  contract_from stl_val = Panic.
Proof. repeat split; vm_compute; reflexivity. Qed.

Print Assumptions C51_equal.
Print Assumptions C51_equivalence.
Print Assumptions C51_hash.
Print Assumptions C51_order.
Print Assumptions C51_coherent_partial.
Print Assumptions C51_refuted.
Print Assumptions C52_read.
Print Assumptions C52_round_trip.
Print Assumptions C52_distinct.
Print Assumptions C52_charset_refuted.
Print Assumptions C58_asset.
Print Assumptions C58_contract.
Print Assumptions C58_read.
Print Assumptions C58_unique.
