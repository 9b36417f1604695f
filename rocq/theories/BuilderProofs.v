(** * Proofs about builders: what they hold *)
From Verif Require Import Base Core IfaceModel BuilderModel BuilderSpec.
Local Open Scope N_scope.

(** ** The latest values *)
Section Latest.
  Context {K V : Type} {OK : OrdKey K}.
  Implicit Types (l : list (K * V)) (k : K).

  Lemma latest_snoc l p k : latest (l ++ [p]) k = if keqb (fst p) k then Some (snd p) else latest l k.
  Proof. unfold latest. rewrite fold_left_app. reflexivity. Qed.

  Lemma latest_from l k (r : option V) :
    fold_left (fun r p => if keqb (fst p) k then Some (snd p) else r) l r =
    match latest l k with Some v => Some v | None => r end.
  Proof.
    unfold latest. revert r. induction l as [|p l IH]; intros r; cbn; [reflexivity|].
    rewrite IH. rewrite (IH (if keqb (fst p) k then Some (snd p) else None)).
    destruct (fold_left _ l None); [reflexivity|]. destruct (keqb (fst p) k); reflexivity.
  Qed.
  Lemma latest_cons p l k :
    latest (p :: l) k = match latest l k with Some v => Some v | None => if keqb (fst p) k then Some (snd p) else None end.
  Proof. unfold latest at 1. cbn. apply latest_from. Qed.

  Lemma latest_In l k v : latest l k = Some v -> In (k, v) l.
  Proof.
    induction l as [|[k' v'] l IH]; [discriminate|]. rewrite latest_cons. cbn [fst snd].
    destruct (latest l k) as [w|].
    - intros E. right. apply IH. exact E.
    - destruct (keqb k' k) eqn:E; [|discriminate]. apply keqb_true in E. subst. intros [= ->]. left. reflexivity.
  Qed.
  Lemma latest_none l k : latest l k = None <-> ~ In k (map fst l).
  Proof.
    induction l as [|[k' v'] l IH]; [cbn; tauto|]. rewrite latest_cons. cbn [fst snd map In].
    destruct (latest l k) as [w|].
    - split; [discriminate|]. intros H. exfalso. apply H. right.
      destruct (in_dec key_dec k (map fst l)) as [Hin|Hn]; [exact Hin|]. apply IH in Hn. discriminate Hn.
    - destruct (keqb k' k) eqn:E.
      + apply keqb_true in E. subst. split; [discriminate|]. intros H. exfalso. apply H. left. reflexivity.
      + split; [|reflexivity]. intros _ [->|Hin]; [rewrite keqb_refl in E; discriminate|].
        apply (proj1 IH eq_refl). exact Hin.
  Qed.
  Lemma latest_some l k : In k (map fst l) -> exists v, latest l k = Some v.
  Proof.
    intros H. destruct (latest l k) as [v|] eqn:E; [eauto|]. apply latest_none in E. tauto.
  Qed.

  (** What is kept is the latest *)
  Lemma kept_In l k v : In (k, v) (kept l) <-> latest l k = Some v.
  Proof.
    induction l as [|[k' v'] l IH]; [cbn; split; [tauto|discriminate]|].
    rewrite latest_cons. cbn [kept fst snd].
    destruct (existsb _ l) eqn:Ex.
    - rewrite IH. destruct (latest l k) as [w|] eqn:E; [reflexivity|].
      destruct (keqb k' k) eqn:Ek; [|reflexivity]. apply keqb_true in Ek. subst k'.
      exfalso. apply existsb_exists in Ex as (q & Hq & Eq). apply keqb_true in Eq.
      apply latest_none in E. apply E. apply in_map_iff. exists q. auto.
    - cbn [In]. rewrite IH.
      destruct (latest l k) as [w|] eqn:E.
      + split; [|auto]. intros [Heq|Hw]; [|exact Hw]. injection Heq as -> ->.
        exfalso. apply latest_In in E.
        assert (existsb (fun q => keqb (fst q) k) l = true) as Hc; [|congruence].
        apply existsb_exists. exists (k, w). split; [exact E|apply keqb_refl].
      + destruct (keqb k' k) eqn:Ek.
        * apply keqb_true in Ek. subst k'. split; [intros [Heq|Hw]; [injection Heq as ->; reflexivity|discriminate]|].
          intros [= ->]. left. reflexivity.
        * split; [intros [Heq|Hw]; [|discriminate]|discriminate]. injection Heq as -> ->. rewrite keqb_refl in Ek. discriminate.
  Qed.
  Lemma kept_sub l p : In p (kept l) -> In p l.
  Proof. destruct p as [k v]. rewrite kept_In. apply latest_In. Qed.
  Lemma kept_NoDup l : NoDup (map fst (kept l)).
  Proof.
    induction l as [|[k' v'] l IH]; [constructor|]. cbn [kept fst].
    destruct (existsb _ l) eqn:Ex; [exact IH|]. cbn [map fst]. constructor; [|exact IH].
    intros Hin. apply in_map_iff in Hin as ([k w] & Ek & Hin). cbn in Ek. subst k.
    apply kept_sub in Hin.
    assert (existsb (fun q => keqb (fst q) k') l = true) as Hc; [|congruence].
    apply existsb_exists. exists (k', w). split; [exact Hin|apply keqb_refl].
  Qed.
  Lemma kept_same l : NoDup (map fst l) -> kept l = l.
  Proof.
    induction l as [|[k v] l IH]; [reflexivity|]. cbn [map fst]. intros H. apply NoDup_cons_iff in H as [Hn H].
    cbn [kept fst]. destruct (existsb _ l) eqn:Ex.
    - exfalso. apply existsb_exists in Ex as (q & Hq & Eq). apply keqb_true in Eq. apply Hn. rewrite <- Eq. apply in_map. exact Hq.
    - rewrite IH; [reflexivity|exact H].
  Qed.

  (** A sorted map of the latest values has as many entries as there are keys *)
  Lemma latest_len l (m : omap K V) : msorted m -> (forall k, mget k m = latest l k) -> len m = distinct (map fst l).
  Proof.
    intros Hs Hm. unfold len, distinct, len. f_equal. rewrite <- (map_length fst m). apply Permutation_length.
    apply NoDup_Permutation; [apply msorted_NoDup; exact Hs|apply NoDup_nodup|].
    intros k. rewrite nodup_In. split; intros H.
    - destruct (in_dec key_dec k (map fst l)) as [Hi|Hn]; [exact Hi|]. apply latest_none in Hn.
      rewrite <- Hm in Hn. apply mget_None_notin in Hn. contradiction.
    - destruct (latest_some _ _ H) as [v Hv]. rewrite <- Hm in Hv. apply mget_Some_in. eauto.
  Qed.
End Latest.

Lemma len_distinct {K} `{OrdKey K} (a b : list K) : NoDup a -> (forall k, In k a <-> In k b) -> len a = distinct b.
Proof.
  intros Hn Hi. unfold len, distinct, len. f_equal. apply Permutation_length.
  apply NoDup_Permutation; [exact Hn|apply NoDup_nodup|]. intros k. rewrite nodup_In. apply Hi.
Qed.

Lemma filter_map_app {A B} (f : A -> option B) l1 l2 : filter_map f (l1 ++ l2) = filter_map f l1 ++ filter_map f l2.
Proof. induction l1 as [|a l1 IH]; cbn; [reflexivity|]. destruct (f a); cbn; rewrite IH; reflexivity. Qed.

Lemma of_kind_app k l1 l2 : of_kind k (l1 ++ l2) = of_kind k l1 ++ of_kind k l2.
Proof. apply filter_app. Qed.

(** ** Mapping values *)
Lemma minsert_mmap {K V W} `{OrdKey K} (f : V -> W) k v (m : omap K V) : mmap f (minsert k v m) = minsert k (f v) (mmap f m).
Proof.
  induction m as [|[k' v'] m IH]; cbn; [reflexivity|].
  destruct (cmp k k'); cbn; [reflexivity|reflexivity|]. f_equal. exact IH.
Qed.
Lemma len_mmap {K V W} (f : V -> W) (m : omap K V) : len (mmap f m) = len m.
Proof. unfold len, mmap. rewrite map_length. reflexivity. Qed.

Lemma cinsert_some {K V} `{OrdKey K} max k v (m m' : omap K V) : cinsert max k v m = Some m' <-> len m < max /\ m' = minsert k v m.
Proof.
  unfold cinsert. destruct (N.ltb_spec (len m) max); split; [intros [= <-]|intros [_ ->]|discriminate|intros [? _]; lia]; auto.
Qed.
Lemma cinsert_not {K V} `{OrdKey K} max k v (m : omap K V) : cinsert max k v m <> None <-> len m < max.
Proof. unfold cinsert. destruct (N.ltb_spec (len m) max); split; intros; try congruence; lia. Qed.

Lemma cinsert_mmap {K V W} `{OrdKey K} (f : V -> W) max k v (m : omap K V) :
  cinsert max k (f v) (mmap f m) = option_map (mmap f) (cinsert max k v m).
Proof. unfold cinsert. rewrite len_mmap. destruct (len m <? max); cbn [option_map]; [|reflexivity]. rewrite minsert_mmap. reflexivity. Qed.

Lemma put_state_mmap {V W} (f : V -> W) ty s v (m : omap N (omap BSeal V)) :
  put_state ty s (f v) (mmap (mmap f) m) = option_map (mmap (mmap f)) (put_state ty s v m).
Proof.
  unfold put_state. rewrite mget_mmap. destruct (mget ty m) as [l|]; cbn [option_map].
  - unfold cinsert. rewrite len_mmap. destruct (len l <? U16MAX); cbn [option_map]; [|reflexivity].
    rewrite !minsert_mmap. reflexivity.
  - exact (cinsert_mmap (mmap f) U8MAX ty [(s, v)] m).
Qed.

Definition void_map (l : oset BSeal) : omap BSeal RState := map (fun s => (s, RVoid)) l.
Lemma void_insert s l : void_map (sinsert s l) = minsert s RVoid (void_map l).
Proof.
  induction l as [|s' l IH]; [reflexivity|]. cbn [sinsert void_map map minsert].
  destruct (cmp s s'); cbn; [reflexivity|reflexivity|]. f_equal. exact IH.
Qed.

Definition amt (v : RValue) : RState := RAmount (rv_value v) (rv_blinding v) (rv_tag v).
Definition dat (v : N * N) : RState := RData (fst v) (snd v).
Definition att (v : N * N) : RState := RAttach (fst v) (snd v).

(** The state a builder holds, by its kind *)
Definition slot (k : StateKind) (b : OpBuilder) : omap N (omap BSeal RState) :=
  match k with
  | KDeclarative => mmap void_map (ob_rights b)
  | KFungible => mmap (mmap amt) (ob_fungible b)
  | KStructured => mmap (mmap dat) (ob_data b)
  | KAttachment => mmap (mmap att) (ob_attach b)
  end.

(** ** Putting state *)
Record own_done (X : BuildCtx) (b : OpBuilder) (ty : N) (seal : BSeal) (st : RState) (b' : OpBuilder) : Prop := {
  od_schema : exists s, mget ty (fs_owned (bc_schema X)) = Some s /\ kind_fits_schema (kind_of st) s;
  od_tag : forall v bl tag, st = RAmount v bl tag -> mget ty (ob_tags b) = Some tag;
  od_slot : put_state ty seal st (slot (kind_of st) b) = Some (slot (kind_of st) b');
  od_other : forall k, k <> kind_of st -> slot k b' = slot k b;
  od_tags : ob_tags b' = ob_tags b;
  od_meta : ob_meta b' = ob_meta b;
  od_global : ob_global b' = ob_global b
}.

Lemma ok_or_ok {E A} (e : E) (o : option A) a : ok_or e o = Ok a <-> o = Some a.
Proof. destruct o; cbn; split; congruence. Qed.
Lemma expect_ok {E A} (o : option A) a : @expect E A o = Ok a <-> o = Some a.
Proof. destruct o; cbn; split; congruence. Qed.
Lemma rbind_ok {E A B} (r : result E A) (f : A -> result E B) b :
  rbind r f = Ok b <-> exists a, r = Ok a /\ f a = Ok b.
Proof. destruct r; cbn; split; intros H; try discriminate; try (destruct H as (? & H1 & H2); congruence). eauto. Qed.
Lemma rmap_ok {E A B} (f : A -> B) (r : result E A) b : rmap f r = Ok b <-> exists a, r = Ok a /\ b = f a.
Proof. destruct r; cbn; split; intros H; try discriminate; try (destruct H as (? & H1 & H2); congruence). injection H as <-. eauto. Qed.
Lemma is_ok_ex {E A} (r : result E A) : is_ok r = true <-> exists a, r = Ok a.
Proof. destruct r; cbn; split; intros H; try discriminate; try (destruct H as (? & H); discriminate); eauto. Qed.

Lemma put_rights ty seal (b : OpBuilder) (m : option (omap N (oset BSeal))) :
  m = match mget ty (ob_rights b) with
      | Some l => option_map (fun l' => minsert ty l' (ob_rights b)) (cpush U16MAX seal l)
      | None => cinsert U8MAX ty [seal] (ob_rights b)
      end ->
  put_state ty seal RVoid (mmap void_map (ob_rights b)) = option_map (mmap void_map) m.
Proof.
  intros ->. unfold put_state. rewrite mget_mmap. destruct (mget ty (ob_rights b)) as [l|]; cbn [option_map].
  - unfold cinsert, cpush. assert (len (void_map l) = len l) as -> by (unfold len, void_map; rewrite map_length; reflexivity).
    destruct (len l <? U16MAX); cbn [option_map]; [|reflexivity]. rewrite minsert_mmap, void_insert. reflexivity.
  - exact (cinsert_mmap void_map U8MAX ty [seal] (ob_rights b)).
Qed.

Lemma add_owned_done X b ty seal st b' : add_owned_raw X b ty seal st = Ok b' -> own_done X b ty seal st b'.
Proof.
  unfold add_owned_raw. destruct st as [|v bl tag|v salt|f salt].
  - unfold add_rights_raw. rewrite rbind_ok. intros (s & Es & H). apply expect_ok in Es.
    destruct s; try discriminate H. apply rbind_ok in H as (m & Em & H). apply ok_or_ok in Em. injection H as <-.
    split; cbn; try reflexivity.
    + exists OsDeclarative. cbn. auto.
    + discriminate.
    + rewrite (put_rights ty seal b _ eq_refl), Em. reflexivity.
    + intros k Hk. destruct k; try reflexivity. contradiction.
  - rewrite rbind_ok. intros (t & Et & H). unfold asset_tag_raw in Et. apply ok_or_ok in Et.
    destruct (t =? tag) eqn:E; [|discriminate]. apply N.eqb_eq in E. subst t.
    unfold add_fungible_raw in H. rewrite rbind_ok in H. destruct H as (s & Es & H). apply expect_ok in Es.
    destruct s; try discriminate H. apply rbind_ok in H as (m & Em & H). apply ok_or_ok in Em. injection H as <-.
    split; cbn; try reflexivity.
    + exists OsFungible. cbn. auto.
    + intros ? ? ? [= <- <- <-]. exact Et.
    + change (RAmount v bl tag) with (amt {| rv_value := v; rv_blinding := bl; rv_tag := tag |}).
      rewrite put_state_mmap, Em. reflexivity.
    + intros k Hk. destruct k; try reflexivity. contradiction.
  - unfold add_data_raw. rewrite rbind_ok. intros (s & Es & H). apply expect_ok in Es.
    destruct s; try discriminate H. apply rbind_ok in H as (m & Em & H). apply ok_or_ok in Em. injection H as <-.
    split; cbn; try reflexivity.
    + exists (OsStructured sem). cbn. auto.
    + discriminate.
    + change (RData v salt) with (dat (v, salt)). rewrite put_state_mmap, Em. reflexivity.
    + intros k Hk. destruct k; try reflexivity. contradiction.
  - unfold add_attachment_raw. rewrite rbind_ok. intros (s & Es & H). apply expect_ok in Es.
    destruct s; try discriminate H. apply rbind_ok in H as (m & Em & H). apply ok_or_ok in Em. injection H as <-.
    split; cbn; try reflexivity.
    + exists (OsAttachment media). cbn. auto.
    + discriminate.
    + change (RAttach f salt) with (att (f, salt)). rewrite put_state_mmap, Em. reflexivity.
    + intros k Hk. destruct k; try reflexivity. contradiction.
Qed.

Lemma add_owned_can X b ty seal st s :
  mget ty (fs_owned (bc_schema X)) = Some s -> kind_fits_schema (kind_of st) s ->
  (forall v bl tag, st = RAmount v bl tag -> mget ty (ob_tags b) = Some tag) ->
  put_state ty seal st (slot (kind_of st) b) <> None ->
  exists b', add_owned_raw X b ty seal st = Ok b'.
Proof.
  intros Hs Hk Ht Hp. unfold add_owned_raw. destruct st as [|v bl tag|v salt|f salt]; cbn [kind_of kind_fits_schema slot] in *.
  - destruct s; try contradiction. unfold add_rights_raw, state_schema. rewrite Hs. cbn.
    rewrite (put_rights ty seal b _ eq_refl) in Hp.
    destruct (match mget ty (ob_rights b) with Some l => _ | None => _ end) as [m|]; [cbn; eauto|]. exfalso. apply Hp. reflexivity.
  - destruct s; try contradiction. unfold asset_tag_raw. rewrite (Ht _ _ _ eq_refl). cbn. rewrite N.eqb_refl.
    unfold add_fungible_raw, state_schema. rewrite Hs. cbn.
    change (RAmount v bl tag) with (amt {| rv_value := v; rv_blinding := bl; rv_tag := tag |}) in Hp.
    rewrite put_state_mmap in Hp. destruct (put_state _ _ _ (ob_fungible b)); [cbn; eauto|]. exfalso. apply Hp. reflexivity.
  - destruct s; try contradiction. unfold add_data_raw, state_schema. rewrite Hs. cbn.
    change (RData v salt) with (dat (v, salt)) in Hp. rewrite put_state_mmap in Hp.
    destruct (put_state _ _ _ (ob_data b)); [cbn; eauto|]. exfalso. apply Hp. reflexivity.
  - destruct s; try contradiction. unfold add_attachment_raw, state_schema. rewrite Hs. cbn.
    change (RAttach f salt) with (att (f, salt)) in Hp. rewrite put_state_mmap in Hp.
    destruct (put_state _ _ _ (ob_attach b)); [cbn; eauto|]. exfalso. apply Hp. reflexivity.
Qed.

(** Amounts with the tag which was read *)
Lemma fungible_as_owned X b ty seal v bl tag : mget ty (ob_tags b) = Some tag ->
  add_fungible_raw X b ty seal {| rv_value := v; rv_blinding := bl; rv_tag := tag |} = add_owned_raw X b ty seal (RAmount v bl tag).
Proof. intros H. cbn [add_owned_raw]. unfold asset_tag_raw. rewrite H. cbn. rewrite N.eqb_refl. reflexivity. Qed.

(** ** What a builder holds *)
Definition slot_ok (m : omap N (omap BSeal RState)) (l : list (N * BSeal * RState)) : Prop :=
  msorted m /\
  forall ty, match mget ty m with
             | Some x => x <> [] /\ msorted x /\ len x <= 65535 /\ forall seal, mget seal x = latest l (ty, seal)
             | None => forall seal, latest l (ty, seal) = None
             end.

Record repr (X : BuildCtx) (b : OpBuilder) (l : list Item) : Prop := {
  rp_tags : msorted (ob_tags b) /\ forall ty, mget ty (ob_tags b) = latest (tags l) ty;
  rp_meta : msorted (ob_meta b) /\ forall ty, mget ty (ob_meta b) = latest (metas l) ty;
  rp_global : msorted (ob_global b) /\ forall ty, mget ty (ob_global b) = or_none (all_for (globals l) ty);
  rp_slot : forall k, slot_ok (slot k b) (of_kind k (owned l));
  rp_schema : forall ty s st, In (ty, s, st) (owned l) ->
     exists sc, mget ty (fs_owned (bc_schema X)) = Some sc /\ kind_fits_schema (kind_of st) sc;
  rp_tagged : forall ty s v bl tag, In (ty, s, RAmount v bl tag) (owned l) -> latest (tags l) ty = Some tag
}.

Lemma repr_new X : repr X ob_new [].
Proof.
  split; cbn; try (split; [apply msorted_nil|reflexivity]); try tauto.
  intros k. split; [destruct k; apply msorted_nil|]. intros ty. destruct k; intros seal; reflexivity.
Qed.

(** Types and seals of a slot *)
Lemma slot_types m l ty : slot_ok m l -> mget ty m = None <-> ~ In ty (map (fun p => fst (fst p)) l).
Proof.
  intros [_ H]. specialize (H ty). destruct (mget ty m) as [x|].
  - split; [discriminate|]. intros Hn. exfalso. destruct H as (Hne & _ & _ & Hx). destruct x as [|[s st] x]; [contradiction|].
    specialize (Hx s). cbn in Hx. rewrite keqb_refl in Hx. symmetry in Hx. apply latest_In in Hx.
    apply Hn. apply in_map_iff. exists (ty, s, st). auto.
  - split; [|reflexivity]. intros _ Hin. apply in_map_iff in Hin as ([[ty' s] st] & E & Hin). cbn in E. subst ty'.
    specialize (H s). apply latest_none in H. apply H. apply in_map_iff. exists (ty, s, st). auto.
Qed.
Lemma slot_types_some m l ty : slot_ok m l -> In ty (map (fun p => fst (fst p)) l) <-> exists x, mget ty m = Some x.
Proof.
  intros Hs. pose proof (slot_types m l ty Hs) as H. destruct (mget ty m) as [x|].
  - split; [eauto|]. intros _. destruct (in_dec key_dec ty (map (fun p => fst (fst p)) l)) as [Hi|Hn]; [exact Hi|].
    apply H in Hn. discriminate.
  - split; [|intros (x & E); discriminate]. intros Hi. exfalso. apply (proj1 H eq_refl). exact Hi.
Qed.
Lemma slot_len m l : slot_ok m l -> len m = distinct (map (fun p => fst (fst p)) l).
Proof.
  intros Hs. unfold len. rewrite <- (map_length fst). fold (len (map fst m)). apply len_distinct.
  - apply msorted_NoDup, Hs.
  - intros ty. rewrite (slot_types_some m l ty Hs). apply mget_Some_in.
Qed.
Lemma slot_seals m l ty x : slot_ok m l -> mget ty m = Some x ->
  len x = distinct (filter_map (fun p => if fst (fst p) =? ty then Some (snd (fst p)) else None) l).
Proof.
  intros [Hs H] Ex. specialize (H ty). rewrite Ex in H. destruct H as (_ & Hxs & _ & Hx).
  unfold len. rewrite <- (map_length fst). fold (len (map fst x)). apply len_distinct; [apply msorted_NoDup; exact Hxs|].
  intros s. rewrite filter_map_In. split; intros Hi.
  - apply mget_Some_in in Hi as [v Hi]. rewrite Hx in Hi. apply latest_In in Hi.
    exists (ty, s, v). split; [exact Hi|]. cbn. rewrite N.eqb_refl. reflexivity.
  - destruct Hi as ([[ty' s'] st] & Hi & E). cbn in E. destruct (ty' =? ty) eqn:Et; [|discriminate]. injection E as ->.
    apply N.eqb_eq in Et. subst ty'.
    destruct (latest_some l (ty, s)) as [v Hv]; [apply in_map_iff; exists (ty, s, st); auto|].
    rewrite <- Hx in Hv. apply mget_Some_in. eauto.
Qed.

Lemma keqb_pair {A B} `{OrdKey A} `{OrdKey B} (a a' : A) (b b' : B) : keqb (a, b) (a', b') = (keqb a a' && keqb b b')%bool.
Proof.
  destruct (keqb (a, b) (a', b')) eqn:E.
  - apply keqb_true in E. injection E as -> ->. rewrite !keqb_refl. reflexivity.
  - destruct (keqb a a') eqn:Ea, (keqb b b') eqn:Eb; try reflexivity.
    apply keqb_true in Ea, Eb. subst. rewrite keqb_refl in E. discriminate.
Qed.

Lemma put_slot m l ty seal st m' : slot_ok m l -> put_state ty seal st m = Some m' -> slot_ok m' (l ++ [(ty, seal, st)]).
Proof.
  intros [Hs H] Hp. unfold put_state in Hp.
  assert (forall ty' s', latest (l ++ [(ty, seal, st)]) (ty', s') =
            if (keqb ty ty' && keqb seal s')%bool then Some st else latest l (ty', s')) as Hl.
  { intros ty' s'. rewrite latest_snoc. cbn [fst snd]. rewrite keqb_pair. reflexivity. }
  pose proof (H ty) as Hty. destruct (mget ty m) as [x|] eqn:Em.
  - unfold cinsert in Hp. destruct (len x <? U16MAX) eqn:El; [|discriminate]. cbn in Hp. injection Hp as <-.
    destruct Hty as (Hne & Hxs & Hxl & Hx).
    split; [apply minsert_sorted; exact Hs|]. intros ty'. rewrite mget_insert. destruct (keqb ty' ty) eqn:Et.
    + apply keqb_true in Et. subst ty'. repeat match goal with |- _ /\ _ => split end.
      * intros E. apply (f_equal (@length _)) in E. rewrite length_insert in E by exact Hxs.
        destruct (mhas seal x); [|discriminate]. destruct x; [contradiction|discriminate].
      * apply minsert_sorted. exact Hxs.
      * apply N.ltb_lt in El. pose proof (length_insert_le seal st x). unfold len, U16MAX in *. lia.
      * intros s'. rewrite mget_insert, Hl, keqb_refl, (keqb_sym seal s'), Hx. cbn [andb]. reflexivity.
    + specialize (H ty'). destruct (mget ty' m) as [y|].
      * destruct H as (H1 & H2 & H3 & H4). repeat (split; [assumption|]). intros s'. rewrite Hl, (keqb_sym ty ty'), Et. cbn [andb]. apply H4.
      * intros s'. rewrite Hl, (keqb_sym ty ty'), Et. cbn [andb]. apply H.
  - apply cinsert_some in Hp as [El ->].
    split; [apply minsert_sorted; exact Hs|]. intros ty'. rewrite mget_insert. destruct (keqb ty' ty) eqn:Et.
    + apply keqb_true in Et. subst ty'. repeat match goal with |- _ /\ _ => split end.
      * discriminate.
      * constructor; constructor.
      * unfold len. cbn [length]. lia.
      * intros s'. rewrite Hl, keqb_refl, (keqb_sym seal s'), Hty. cbn. destruct (keqb s' seal); reflexivity.
    + specialize (H ty'). destruct (mget ty' m) as [y|].
      * destruct H as (H1 & H2 & H3 & H4). repeat (split; [assumption|]). intros s'. rewrite Hl, (keqb_sym ty ty'), Et. cbn [andb]. apply H4.
      * intros s'. rewrite Hl, (keqb_sym ty ty'), Et. cbn [andb]. apply H.
Qed.

(** There is room *)
Lemma put_room m l ty seal st : slot_ok m l ->
  put_state ty seal st m <> None <->
  (In ty (map (fun p => fst (fst p)) l) ->
     distinct (filter_map (fun p => if fst (fst p) =? ty then Some (snd (fst p)) else None) l) < 65535) /\
  (~ In ty (map (fun p => fst (fst p)) l) -> distinct (map (fun p => fst (fst p)) l) < 255).
Proof.
  intros Hs. pose proof (slot_types m l ty Hs) as Hn. pose proof (slot_types_some m l ty Hs) as Hi. pose proof (slot_len m l Hs) as Hl.
  unfold put_state. destruct (mget ty m) as [x|] eqn:Em.
  - pose proof (slot_seals m l ty x Hs Em) as Hx. unfold cinsert. rewrite Hx. unfold U16MAX.
    destruct (_ <? 65535) eqn:E; cbn.
    + apply N.ltb_lt in E. split; [|discriminate]. intros _. split; [auto|]. intros H. apply Hn in H. discriminate.
    + apply N.ltb_ge in E. split; [congruence|]. intros [H _]. exfalso.
      assert (distinct (filter_map (fun p => if fst (fst p) =? ty then Some (snd (fst p)) else None) l) < 65535) by (apply H, Hi; eauto). lia.
  - pose proof (cinsert_not U8MAX ty [(seal, st)] m) as Hc. change (len m < U8MAX) with (@len (N * omap BSeal RState) m < 255) in Hc.
    rewrite Hl in Hc. split.
    + intros E. apply Hc in E. split; [|auto]. intros H. apply Hi in H as (x & H). discriminate.
    + intros [_ H]. apply Hc, H, Hn. reflexivity.
Qed.

Lemma owned_snoc l ty s st : owned (l ++ [ItOwn ty s st]) = owned l ++ [(ty, s, st)].
Proof. unfold owned. rewrite filter_map_app. reflexivity. Qed.

Lemma of_kind_snoc k l ty s st :
  of_kind k (l ++ [(ty, s, st)]) = if kind_eqb (kind_of st) k then of_kind k l ++ [(ty, s, st)] else of_kind k l.
Proof. rewrite of_kind_app. unfold of_kind at 2. cbn. destruct (kind_eqb (kind_of st) k); [reflexivity|]. apply app_nil_r. Qed.

(** ** State is put exactly when it is allowed *)
Lemma repr_own X b l ty s st b' : repr X b l -> add_owned_raw X b ty s st = Ok b' ->
  allowed X l (ItOwn ty s st) /\ repr X b' (l ++ [ItOwn ty s st]).
Proof.
  intros R H. apply add_owned_done in H as [Hsc Htag Hput Hoth Ht Hm Hg].
  assert (forall v bl tag, st = RAmount v bl tag -> latest (tags l) ty = Some tag) as Htag'.
  { intros v bl tag E. rewrite <- (proj2 (rp_tags _ _ _ R)). eapply Htag. exact E. }
  split.
  - cbn [allowed]. split; [exact Hsc|]. split; [exact Htag'|].
    apply (put_room (slot (kind_of st) b) (of_kind (kind_of st) (owned l)) ty s st); [apply (rp_slot _ _ _ R)|]. rewrite Hput. discriminate.
  - assert (tags (l ++ [ItOwn ty s st]) = tags l) as Et. { unfold tags. rewrite filter_map_app. cbn. apply app_nil_r. }
    split.
    + rewrite Ht, Et. apply (rp_tags _ _ _ R).
    + rewrite Hm. unfold metas. rewrite filter_map_app. cbn. rewrite app_nil_r. apply (rp_meta _ _ _ R).
    + rewrite Hg. unfold globals. rewrite filter_map_app. cbn. rewrite app_nil_r. apply (rp_global _ _ _ R).
    + intros k. rewrite owned_snoc, of_kind_snoc. destruct (kind_eqb (kind_of st) k) eqn:Ek.
      * apply kind_eqb_eq in Ek. subst k. eapply put_slot; [apply (rp_slot _ _ _ R)|exact Hput].
      * rewrite Hoth; [apply (rp_slot _ _ _ R)|]. intros ->. rewrite kind_eqb_refl in Ek. discriminate.
    + intros ty' s' st'. rewrite owned_snoc, in_app_iff. intros [Hi|[Hi|[]]].
      * apply (rp_schema _ _ _ R) in Hi. exact Hi.
      * injection Hi as <- <- <-. exact Hsc.
    + intros ty' s' v bl tag. rewrite owned_snoc, in_app_iff, Et. intros [Hi|[Hi|[]]].
      * apply (rp_tagged _ _ _ R) in Hi. exact Hi.
      * injection Hi as <- <- Hst. eapply Htag'. exact Hst.
Qed.

Lemma repr_own_can X b l ty s st : repr X b l -> allowed X l (ItOwn ty s st) -> exists b', add_owned_raw X b ty s st = Ok b'.
Proof.
  intros R ((sc & Hsc & Hk) & Htag & Hroom). eapply add_owned_can; [exact Hsc|exact Hk| |].
  - intros v bl tag E. rewrite (proj2 (rp_tags _ _ _ R)). eapply Htag. exact E.
  - apply (put_room _ (of_kind (kind_of st) (owned l))); [apply (rp_slot _ _ _ R)|]. exact Hroom.
Qed.

(** ** Tags *)
Lemma repr_fungible_has X b l ty : repr X b l -> mhas ty (ob_fungible b) = false <-> ~ In ty (types_of KFungible (owned l)).
Proof.
  intros R. pose proof (slot_types _ _ ty (rp_slot _ _ _ R KFungible)) as H. cbn [slot] in H. rewrite mget_mmap in H.
  unfold types_of. rewrite <- H. rewrite mhas_false. destruct (mget ty (ob_fungible b)); cbn; split; congruence.
Qed.

Lemma repr_tag X b l ty tag b' : repr X b l -> add_asset_tag_raw b ty tag = Ok b' ->
  allowed X l (ItTag ty tag) /\ repr X b' (l ++ [ItTag ty tag]).
Proof.
  intros R. unfold add_asset_tag_raw. destruct (mhas ty (ob_fungible b)) eqn:Eh; [discriminate|].
  rewrite rbind_ok. intros (m & Em & [= <-]). apply ok_or_ok in Em. unfold cinsert in Em.
  destruct (len (ob_tags b) <? U8MAX) eqn:El; [|discriminate]. injection Em as <-.
  pose proof (rp_tags _ _ _ R) as [Hts Htg].
  assert (~ In ty (types_of KFungible (owned l))) as Hno by (apply (repr_fungible_has X b l ty R); exact Eh).
  assert (tags (l ++ [ItTag ty tag]) = tags l ++ [(ty, tag)]) as Et. { unfold tags. rewrite filter_map_app. reflexivity. }
  assert (owned (l ++ [ItTag ty tag]) = owned l) as Eo. { unfold owned. rewrite filter_map_app. cbn. apply app_nil_r. }
  split.
  - cbn [allowed]. split; [exact Hno|]. rewrite <- (latest_len (tags l) (ob_tags b) Hts Htg). apply N.ltb_lt. exact El.
  - split.
    + rewrite Et. cbn. split; [apply minsert_sorted; exact Hts|]. intros ty'. rewrite mget_insert, latest_snoc. cbn [fst snd]. rewrite (keqb_sym ty ty').
      destruct (keqb ty' ty); [reflexivity|]. apply Htg.
    + unfold metas. rewrite filter_map_app. cbn. rewrite app_nil_r. apply (rp_meta _ _ _ R).
    + unfold globals. rewrite filter_map_app. cbn. rewrite app_nil_r. apply (rp_global _ _ _ R).
    + rewrite Eo. intros k. pose proof (rp_slot _ _ _ R k) as H. destruct k; exact H.
    + rewrite Eo. apply (rp_schema _ _ _ R).
    + rewrite Eo, Et. intros ty' s v bl t Hi. rewrite latest_snoc. cbn [fst snd]. destruct (keqb ty ty') eqn:E.
      * exfalso. apply keqb_true in E. subst ty'. apply Hno. apply in_map_iff. exists (ty, s, RAmount v bl t). split; [reflexivity|].
        apply filter_In. split; [exact Hi|reflexivity].
      * eapply (rp_tagged _ _ _ R). exact Hi.
Qed.
Lemma repr_tag_can X b l ty tag : repr X b l -> allowed X l (ItTag ty tag) -> exists b', add_asset_tag_raw b ty tag = Ok b'.
Proof.
  intros R (Hno & Hroom). unfold add_asset_tag_raw. apply (repr_fungible_has X b l ty R) in Hno. rewrite Hno.
  pose proof (rp_tags _ _ _ R) as [Hts Htg]. unfold cinsert. rewrite (latest_len (tags l) (ob_tags b) Hts Htg).
  apply N.ltb_lt in Hroom. unfold U8MAX. rewrite Hroom. cbn. eauto.
Qed.

(** ** Metadata and global state *)
Lemma repr_meta X b l name v b' : repr X b l -> add_metadata X b name v = Ok b' ->
  exists ty w, type_of (fm_metadata (bc_impl X)) name = Some ty /\ v = Some w /\
    allowed X l (ItMeta ty w) /\ repr X b' (l ++ [ItMeta ty w]).
Proof.
  intros R. unfold add_metadata. rewrite rbind_ok. intros (w & Ew & H). apply ok_or_ok in Ew.
  apply rbind_ok in H as (ty & Ety & H). apply ok_or_ok in Ety. apply rbind_ok in H as (sem & Esem & H). apply expect_ok in Esem.
  destruct (bc_fits X sem w) eqn:Ef; [|discriminate]. destruct (mhas ty (ob_meta b)) eqn:Eh; [discriminate|].
  apply rbind_ok in H as (m & Em & [= <-]). apply ok_or_ok in Em. unfold cinsert in Em.
  destruct (len (ob_meta b) <? U8MAX) eqn:El; [|discriminate]. injection Em as <-.
  pose proof (rp_meta _ _ _ R) as [Hts Htg]. exists ty, w. split; [exact Ety|]. split; [exact Ew|].
  assert (metas (l ++ [ItMeta ty w]) = metas l ++ [(ty, w)]) as Et. { unfold metas. rewrite filter_map_app. reflexivity. }
  assert (owned (l ++ [ItMeta ty w]) = owned l) as Eo. { unfold owned. rewrite filter_map_app. cbn. apply app_nil_r. }
  assert (tags (l ++ [ItMeta ty w]) = tags l) as Eg. { unfold tags. rewrite filter_map_app. cbn. apply app_nil_r. }
  split.
  - cbn [allowed]. split; [eauto|]. split.
    + apply latest_none. rewrite <- Htg. apply mhas_false. exact Eh.
    + rewrite <- (latest_len (metas l) (ob_meta b) Hts Htg). apply N.ltb_lt. exact El.
  - split.
    + rewrite Eg. apply (rp_tags _ _ _ R).
    + rewrite Et. cbn. split; [apply minsert_sorted; exact Hts|]. intros ty'. rewrite mget_insert, latest_snoc. cbn [fst snd]. rewrite (keqb_sym ty ty').
      destruct (keqb ty' ty); [reflexivity|]. apply Htg.
    + unfold globals. rewrite filter_map_app. cbn. rewrite app_nil_r. apply (rp_global _ _ _ R).
    + rewrite Eo. intros k. pose proof (rp_slot _ _ _ R k) as H. destruct k; exact H.
    + rewrite Eo. apply (rp_schema _ _ _ R).
    + rewrite Eo, Eg. apply (rp_tagged _ _ _ R).
Qed.
Lemma repr_meta_can X b l name ty v : repr X b l -> type_of (fm_metadata (bc_impl X)) name = Some ty -> allowed X l (ItMeta ty v) ->
  exists b', add_metadata X b name (Some v) = Ok b'.
Proof.
  intros R Ety ((sem & Es & Ef) & Hno & Hroom). unfold add_metadata. cbn. rewrite Ety. cbn. rewrite Es. cbn. rewrite Ef.
  pose proof (rp_meta _ _ _ R) as [Hts Htg]. apply latest_none in Hno. rewrite <- Htg in Hno. apply mhas_false in Hno. rewrite Hno.
  unfold cinsert. rewrite (latest_len (metas l) (ob_meta b) Hts Htg). apply N.ltb_lt in Hroom. unfold U8MAX. rewrite Hroom. cbn. eauto.
Qed.

Lemma all_for_snoc l k ty v : @all_for N (l ++ [(ty, v)]) k = if ty =? k then all_for l k ++ [v] else all_for l k.
Proof. unfold all_for. rewrite filter_map_app. cbn. destruct (ty =? k); [reflexivity|]. apply app_nil_r. Qed.
Lemma all_for_nil l k : @all_for N l k = [] <-> ~ In k (map fst l).
Proof.
  induction l as [|[k' v] l IH]; [cbn; tauto|]. unfold all_for in *. cbn. destruct (k' =? k) eqn:E.
  - apply N.eqb_eq in E. subst. split; [discriminate|]. intros H. exfalso. apply H. left. reflexivity.
  - rewrite IH. apply N.eqb_neq in E. split; [intros H [H2|H2]; [congruence|tauto]|tauto].
Qed.
Lemma global_none l ty (m : omap N (list N)) : (forall ty, mget ty m = or_none (all_for l ty)) -> mget ty m = None <-> ~ In ty (map fst l).
Proof. intros H. rewrite H, <- all_for_nil. unfold or_none. destruct (all_for l ty); split; congruence. Qed.
Lemma global_len l (m : omap N (list N)) : msorted m -> (forall ty, mget ty m = or_none (all_for l ty)) -> len m = distinct (map fst l).
Proof.
  intros Hs H. unfold len. rewrite <- (map_length fst). fold (len (map fst m)). apply len_distinct; [apply msorted_NoDup; exact Hs|].
  intros ty. pose proof (global_none l ty m H) as Hn. split; intros Hi.
  - destruct (in_dec key_dec ty (map fst l)) as [Hy|Hno]; [exact Hy|]. apply Hn in Hno. apply mget_None_notin in Hno. contradiction.
  - destruct (mget ty m) eqn:E; [apply mget_Some_in; eauto|]. exfalso. apply (proj1 Hn eq_refl). exact Hi.
Qed.

Lemma repr_global X b l name v b' : repr X b l -> add_global_state X b name v = Ok b' ->
  exists ty w, type_of (fm_globals (bc_impl X)) name = Some ty /\ v = Some w /\
    allowed X l (ItGlobal ty w) /\ repr X b' (l ++ [ItGlobal ty w]).
Proof.
  intros R. unfold add_global_state. rewrite rbind_ok. intros (w & Ew & H). apply ok_or_ok in Ew.
  apply rbind_ok in H as (ty & Ety & H). apply ok_or_ok in Ety. apply rbind_ok in H as (g & Eg & H). apply expect_ok in Eg.
  destruct (bc_fits X (gs_sem g) w) eqn:Ef; [|discriminate].
  apply rbind_ok in H as (m & Em & [= <-]). apply ok_or_ok in Em.
  pose proof (rp_global _ _ _ R) as [Hts Htg]. exists ty, w. split; [exact Ety|]. split; [exact Ew|].
  assert (globals (l ++ [ItGlobal ty w]) = globals l ++ [(ty, w)]) as Et. { unfold globals. rewrite filter_map_app. reflexivity. }
  assert (owned (l ++ [ItGlobal ty w]) = owned l) as Eo. { unfold owned. rewrite filter_map_app. cbn. apply app_nil_r. }
  assert (tags (l ++ [ItGlobal ty w]) = tags l) as Egg. { unfold tags. rewrite filter_map_app. cbn. apply app_nil_r. }
  pose proof (global_none (globals l) ty (ob_global b) Htg) as Hnone.
  unfold add_state in Em.
  assert ((In ty (map fst (globals l)) -> len (all_for (globals l) ty) < 65535) /\
          (~ In ty (map fst (globals l)) -> distinct (map fst (globals l)) < 255) /\
          m = minsert ty (all_for (globals l) ty ++ [w]) (ob_global b)) as (Hr1 & Hr2 & ->).
  { destruct (mget ty (ob_global b)) as [x|] eqn:Ex.
    - pose proof Ex as Ex'. rewrite Htg in Ex'. unfold or_none in Ex'. destruct (all_for (globals l) ty) as [|y ys] eqn:Ea; [discriminate|]. injection Ex' as <-.
      unfold cpush_back in Em. destruct (_ <? U16MAX) eqn:El; [|discriminate]. cbn in Em. injection Em as <-. apply N.ltb_lt in El.
      split; [intros _; exact El|]. split; [intros H; apply Hnone in H; discriminate|]. reflexivity.
    - unfold cinsert in Em. destruct (len (ob_global b) <? U8MAX) eqn:El; [|discriminate]. injection Em as <-. apply N.ltb_lt in El.
      pose proof (proj1 Hnone eq_refl) as Hn. split; [tauto|]. split.
      + intros _. rewrite <- (global_len (globals l) (ob_global b) Hts Htg). exact El.
      + apply all_for_nil in Hn. rewrite Hn. reflexivity. }
  split.
  - cbn [allowed]. split; [eauto|]. split; assumption.
  - split.
    + rewrite Egg. apply (rp_tags _ _ _ R).
    + unfold metas. rewrite filter_map_app. cbn. rewrite app_nil_r. apply (rp_meta _ _ _ R).
    + rewrite Et. cbn. split; [apply minsert_sorted; exact Hts|]. intros ty'. rewrite mget_insert, all_for_snoc.
      destruct (keqb ty' ty) eqn:E.
      * apply keqb_true in E. subst. rewrite N.eqb_refl. unfold or_none. destruct (all_for (globals l) ty); reflexivity.
      * destruct (ty =? ty') eqn:E2; [apply N.eqb_eq in E2; subst; rewrite keqb_refl in E; discriminate|]. apply Htg.
    + rewrite Eo. intros k. pose proof (rp_slot _ _ _ R k) as H. destruct k; exact H.
    + rewrite Eo. apply (rp_schema _ _ _ R).
    + rewrite Eo, Egg. apply (rp_tagged _ _ _ R).
Qed.
Lemma repr_global_can X b l name ty v : repr X b l -> type_of (fm_globals (bc_impl X)) name = Some ty -> allowed X l (ItGlobal ty v) ->
  exists b', add_global_state X b name (Some v) = Ok b'.
Proof.
  intros R Ety ((g & Es & Ef) & Hr1 & Hr2). unfold add_global_state. cbn. rewrite Ety. cbn. rewrite Es. cbn. rewrite Ef.
  pose proof (rp_global _ _ _ R) as [Hts Htg]. pose proof (global_none (globals l) ty (ob_global b) Htg) as Hnone.
  unfold add_state. destruct (mget ty (ob_global b)) as [x|] eqn:Ex.
  - assert (In ty (map fst (globals l))) as Hin.
    { destruct (in_dec key_dec ty (map fst (globals l))) as [Hy|Hno]; [exact Hy|]. apply Hnone in Hno. discriminate. }
    rewrite Htg in Ex. unfold or_none in Ex. specialize (Hr1 Hin). destruct (all_for (globals l) ty) as [|y ys]; [discriminate|]. injection Ex as <-.
    unfold cpush_back. apply N.ltb_lt in Hr1. unfold U16MAX. rewrite Hr1. cbn. eauto.
  - specialize (Hr2 (proj1 Hnone eq_refl)). unfold cinsert. rewrite (global_len (globals l) (ob_global b) Hts Htg).
    apply N.ltb_lt in Hr2. unfold U8MAX. rewrite Hr2. cbn. eauto.
Qed.

(** Items which do not concern the operation builder *)
Definition outside (i : Item) : Prop := match i with ItIn _ _ | ItNonce _ | ItMainnet | ItLiquid => True | _ => False end.
Lemma repr_skip X b l i : outside i -> repr X b l -> repr X b (l ++ [i]).
Proof.
  intros Ho R. destruct i; try contradiction; (split;
    [unfold tags|unfold metas|unfold globals|unfold owned|unfold owned|unfold owned, tags]; rewrite ?filter_map_app; cbn; rewrite ?app_nil_r; apply R).
Qed.
