(** * Proofs about builders: completing *)
From Verif Require Import Base Core IfaceModel BuilderModel BuilderSpec BuilderProofs BuilderCalls.
Local Open Scope N_scope.

(** ** Lists of typed things *)
Lemma all_for_app {A} (l1 l2 : list (N * A)) k : all_for (l1 ++ l2) k = all_for l1 k ++ all_for l2 k.
Proof. apply filter_map_app. Qed.
Lemma all_for_map {A B} (f : A -> B) (l : list (N * A)) k : all_for (map (fun p => (fst p, f (snd p))) l) k = map f (all_for l k).
Proof. induction l as [|[k' a] l IH]; [reflexivity|]. unfold all_for in *. cbn. destruct (k' =? k); cbn; rewrite IH; reflexivity. Qed.
Lemma all_for_In {A} (l : list (N * A)) k a : In a (all_for l k) <-> In (k, a) l.
Proof.
  unfold all_for. rewrite filter_map_In. split.
  - intros ([k' a'] & Hi & E). cbn in E. destruct (k' =? k) eqn:Ek; [|discriminate]. apply N.eqb_eq in Ek. injection E as ->. subst. exact Hi.
  - intros Hi. exists (k, a). split; [exact Hi|]. cbn. rewrite N.eqb_refl. reflexivity.
Qed.
Lemma all_for_perm {A} (l1 l2 : list (N * A)) : (forall k, Permutation (all_for l1 k) (all_for l2 k)) -> Permutation l1 l2.
Proof.
  revert l2. induction l1 as [|[k a] l1 IH]; intros l2 H.
  - destruct l2 as [|[k a] l2]; [constructor|]. specialize (H k). unfold all_for in H. cbn in H. rewrite N.eqb_refl in H.
    apply Permutation_nil in H. discriminate.
  - assert (In (k, a) l2) as Hin.
    { apply all_for_In. eapply Permutation_in; [apply H|]. unfold all_for. cbn. rewrite N.eqb_refl. left. reflexivity. }
    apply in_split in Hin as (l21 & l22 & ->). apply Permutation_cons_app. apply IH. intros k'. specialize (H k').
    rewrite all_for_app in *. unfold all_for at 1 in H. cbn in H. fold (all_for l1 k') in H.
    unfold all_for at 3 in H. cbn in H. fold (all_for l22 k') in H. destruct (k =? k').
    + eapply Permutation_cons_app_inv. exact H.
    + exact H.
Qed.

Lemma all_for_flat {A} (m : omap N (list A)) k : NoDup (map fst m) ->
  all_for (flat_map (fun p => map (fun a => (fst p, a)) (snd p)) m) k = match mget k m with Some l => l | None => [] end.
Proof.
  induction m as [|[k' l] m IH]; [reflexivity|]. cbn [map fst snd flat_map mget]. intros H. apply NoDup_cons_iff in H as [Hn H].
  rewrite all_for_app, (IH H). destruct (keqb k k') eqn:E.
  - apply keqb_true in E. subst k'. replace (mget k m) with (@None (list A)); [rewrite app_nil_r|symmetry; apply mget_None_notin; exact Hn].
    clear. induction l as [|a l IH]; [reflexivity|]. unfold all_for in *. cbn. rewrite N.eqb_refl, IH. reflexivity.
  - replace (all_for (map (fun a => (k', a)) l) k) with (@nil A); [reflexivity|].
    clear -E. induction l as [|a l IH]; [reflexivity|]. unfold all_for in *. cbn. destruct (k' =? k) eqn:E2; [|exact IH].
    apply N.eqb_eq in E2. subst. rewrite keqb_refl in E. discriminate.
Qed.

Lemma made_for o ty : msorted (op_assigns o) ->
  all_for (made o) ty = match mget ty (op_assigns o) with Some t => ta_list t | None => [] end.
Proof.
  intros H. unfold made.
  replace (flat_map _ (op_assigns o)) with (flat_map (fun p => map (fun a => (fst p, a)) (snd p)) (mmap ta_list (op_assigns o))).
  - rewrite all_for_flat; [rewrite mget_mmap; destruct (mget ty (op_assigns o)); reflexivity|].
    unfold mmap. rewrite map_map. apply msorted_NoDup. exact H.
  - unfold mmap. clear. induction (op_assigns o) as [|[k t] m IH]; [reflexivity|]. cbn. rewrite IH. reflexivity.
Qed.

Lemma state_of_all ty l : state_of ty l = all_for (map (fun p => (fst (fst p), (snd (fst p), snd p))) l) ty.
Proof. induction l as [|[[t s] st] l IH]; [reflexivity|]. unfold state_of, all_for in *. cbn. destruct (t =? ty); rewrite IH; reflexivity. Qed.
Lemma state_of_In ty l s st : In (s, st) (state_of ty l) <-> In (ty, s, st) l.
Proof.
  rewrite state_of_all, all_for_In, in_map_iff. split.
  - intros ([[t s'] st'] & E & Hi). injection E as <- <- <-. exact Hi.
  - intros H. exists (ty, s, st). auto.
Qed.
Lemma state_of_NoDup ty l : NoDup (map fst l) -> NoDup (map fst (state_of ty l)).
Proof.
  induction l as [|[[t s] st] l IH]; [constructor|]. cbn [map fst]. intros H. apply NoDup_cons_iff in H as [Hn H].
  unfold state_of. cbn. destruct (t =? ty) eqn:E; [|apply IH; exact H]. cbn. constructor; [|apply IH; exact H].
  apply N.eqb_eq in E. subst. intros Hi. apply in_map_iff in Hi as ([s' st'] & Es & Hi). cbn in Es. subst s'.
  apply state_of_In in Hi. apply Hn. apply in_map_iff. exists (ty, s, st'). auto.
Qed.

Lemma latest_filter {K V} `{OrdKey K} (f : K * V -> bool) (l : list (K * V)) k :
  (forall v, In (k, v) l -> f (k, v) = true) -> latest (filter f l) k = latest l k.
Proof.
  induction l as [|[k' v] l IH]; [reflexivity|]. intros Hf. cbn [filter].
  assert (latest (filter f l) k = latest l k) as E by (apply IH; intros w Hw; apply Hf; right; exact Hw).
  rewrite (latest_cons (k', v) l). destruct (f (k', v)) eqn:Ef; [rewrite latest_cons, E; reflexivity|]. rewrite E.
  destruct (latest l k); [reflexivity|]. cbn [fst snd]. destruct (keqb k' k) eqn:Ek; [|reflexivity].
  apply keqb_true in Ek. subst k'. rewrite Hf in Ef by (left; reflexivity). discriminate.
Qed.

(** ** The state held is what was put last *)
Lemma kinds_agree k k' s : kind_fits_schema k s -> kind_fits_schema k' s -> k = k'.
Proof. destruct k, k', s; cbn; tauto || reflexivity. Qed.

Section Held.
  Context (X : BuildCtx) (b : OpBuilder) (l : list Item) (R : repr X b l).

  Lemma held_kind k ty x s st : mget ty (slot k b) = Some x -> In (ty, s, st) (owned l) -> kind_of st = k.
  Proof.
    intros Hx Hi. assert (Hin : In ty (map (fun p => fst (fst p)) (of_kind k (owned l)))) by (apply (slot_types_some _ _ ty (rp_slot _ _ _ R k)); eauto).
    apply in_map_iff in Hin as ([[t s'] st'] & Et & Hin). cbn in Et. subst t. apply filter_In in Hin as [Hin Hk]. cbn in Hk. apply kind_eqb_eq in Hk.
    apply (rp_schema _ _ _ R) in Hi as (sc & Hs & Hf). apply (rp_schema _ _ _ R) in Hin as (sc' & Hs' & Hf').
    rewrite Hs in Hs'. injection Hs' as <-. rewrite Hk in Hf'. eapply kinds_agree; eassumption.
  Qed.

  Lemma held_latest k ty x s : mget ty (slot k b) = Some x -> mget s x = latest (owned l) (ty, s).
  Proof.
    intros Hx. destruct (rp_slot _ _ _ R k) as [_ H]. specialize (H ty). rewrite Hx in H. destruct H as (_ & _ & _ & H).
    rewrite H. apply latest_filter. intros st Hi. apply kind_eqb_eq. eapply held_kind; eassumption.
  Qed.

  Lemma held_ordered k ty x : mget ty (slot k b) = Some x -> in_order (state_of ty (kept (owned l))) x.
  Proof.
    intros Hx. destruct (rp_slot _ _ _ R k) as [_ H]. specialize (H ty). rewrite Hx in H. destruct H as (_ & Hs & _ & _).
    split; [|exact Hs]. apply NoDup_Permutation.
    - eapply NoDup_map_inv. apply state_of_NoDup. apply kept_NoDup.
    - eapply NoDup_map_inv. apply msorted_NoDup. exact Hs.
    - intros [s st]. rewrite state_of_In, kept_In, <- (held_latest k ty x s Hx). split; intros Hi.
      + apply mget_In. exact Hi.
      + apply In_mget; [exact Hs|exact Hi].
  Qed.

  Lemma held_states k ty x s st : mget ty (slot k b) = Some x -> In (s, st) x -> kind_of st = k.
  Proof.
    intros Hx Hi. destruct (held_ordered k ty x Hx) as [Hp _]. eapply Permutation_in in Hi; [|symmetry; exact Hp].
    apply state_of_In, kept_sub in Hi. eapply held_kind; eassumption.
  Qed.

  Lemma held_none ty : (forall k, mget ty (slot k b) = None) -> state_of ty (kept (owned l)) = [].
  Proof.
    intros H. destruct (state_of ty (kept (owned l))) as [|[s st] r] eqn:E; [reflexivity|]. exfalso.
    assert (In (s, st) (state_of ty (kept (owned l)))) as Hi by (rewrite E; left; reflexivity).
    apply state_of_In, kept_sub in Hi. specialize (H (kind_of st)).
    apply (slot_types _ _ ty (rp_slot _ _ _ R (kind_of st))) in H. apply H. apply in_map_iff. exists (ty, s, st). split; [reflexivity|].
    apply filter_In. split; [exact Hi|]. cbn. apply kind_eqb_refl.
  Qed.

  Lemma held_once k k' ty x x' : mget ty (slot k b) = Some x -> mget ty (slot k' b) = Some x' -> k = k'.
  Proof.
    intros H H'. destruct (rp_slot _ _ _ R k) as [_ Hk]. specialize (Hk ty). rewrite H in Hk. destruct Hk as (Hne & _ & _ & _).
    destruct x as [|[s st] x]; [contradiction|]. assert (kind_of st = k) as <- by (eapply held_states; [exact H|left; reflexivity]).
    destruct (held_ordered (kind_of st) ty _ H) as [Hp _]. assert (In (s, st) (state_of ty (kept (owned l)))) as Hi.
    { eapply Permutation_in; [symmetry; exact Hp|left; reflexivity]. }
    apply state_of_In, kept_sub in Hi. eapply held_kind; eassumption.
  Qed.

  Lemma held_schema k ty x : mget ty (slot k b) = Some x -> In ty (map fst (fs_owned (bc_schema X))).
  Proof.
    intros H. destruct (rp_slot _ _ _ R k) as [_ Hk]. specialize (Hk ty). rewrite H in Hk. destruct Hk as (Hne & _ & _ & _).
    destruct x as [|[s st] x]; [contradiction|]. destruct (held_ordered k ty _ H) as [Hp _].
    assert (In (s, st) (state_of ty (kept (owned l)))) as Hi by (eapply Permutation_in; [symmetry; exact Hp|left; reflexivity]).
    apply state_of_In, kept_sub, (rp_schema _ _ _ R) in Hi as (sc & Hs & _). apply mget_Some_in. eauto.
  Qed.
End Held.

(** ** Amounts *)
Lemma input_blindings_ok ty inputs r : input_blindings ty inputs = Ok r <->
  (forall o st, In (o, st) (inputs_of ty inputs) -> kind_of st = KFungible) /\ r = map (fun p => blinding_of (snd p)) (inputs_of ty inputs).
Proof.
  revert r. induction inputs as [|[o st] inputs IH]; intros r; cbn [input_blindings].
  - split; [intros [= <-]; split; [intros ? ? []|reflexivity]|intros [_ ->]; reflexivity].
  - unfold inputs_of in *. cbn [filter fst]. destruct (oo_ty o =? ty) eqn:E.
    + destruct st as [|v bl t| |]; cbn [map snd blinding_of];
        try (split; [discriminate|intros [H _]; specialize (H o _ (or_introl eq_refl)); discriminate]).
      rewrite rbind_ok. split.
      * intros (r' & E' & [= <-]). apply IH in E' as [H ->]. split; [|reflexivity]. intros o' st' [[= <- <-]|Hi]; [reflexivity|eauto].
      * intros [H ->]. eexists. split; [|reflexivity]. apply IH. split; [|reflexivity]. intros o' st' Hi. eapply H. right. exact Hi.
    + apply IH.
Qed.
Lemma input_blindings_no_err ty inputs e : input_blindings ty inputs <> Err e.
Proof.
  induction inputs as [|[o st] inputs IH]; cbn; [discriminate|]. destruct (oo_ty o =? ty); [|exact IH].
  destruct st; try discriminate. destruct (input_blindings ty inputs); cbn; congruence.
Qed.
Lemma set_last_snoc b l s v : set_last_blinding b (l ++ [(s, v)]) = l ++ [(s, {| rv_value := rv_value v; rv_blinding := b; rv_tag := rv_tag v |})].
Proof.
  induction l as [|p l IH]; [reflexivity|]. cbn [app]. rewrite <- IH. cbn [set_last_blinding].
  destruct (l ++ [(s, v)]) eqn:E; [destruct l; discriminate|]. destruct p. reflexivity.
Qed.

Lemma typed_ok k l : l <> [] -> len l <= 65535 -> typed_assigns k l = Ok {| ta_kind := k; ta_list := l |}.
Proof. intros Hn Hl. unfold typed_assigns, U16MAX. destruct l; [contradiction|]. apply N.leb_le in Hl. rewrite Hl. reflexivity. Qed.

Lemma complete_fungible_ok P inputs ty first s v : len (first ++ [(s, v)]) <= 65535 ->
  complete_fungible P inputs ty (first ++ [(s, v)]) =
  match input_blindings ty inputs with
  | Ok r => match pd_balance P (match r with [] => [pd_empty P] | _ => r end) (map (fun p => rv_blinding (snd p)) first) with
            | Some b => Ok {| ta_kind := KFungible;
                              ta_list := map (fun p => assigned (fst p) (amt (snd p))) first ++ [assigned s (RAmount (rv_value v) b (rv_tag v))] |}
            | None => Panic
            end
  | Err e => Err e
  | Panic => Panic
  end.
Proof.
  intros Hl. unfold complete_fungible.
  replace (removelast (map (fun p => rv_blinding (snd p)) (first ++ [(s, v)]))) with (map (fun p => rv_blinding (snd p)) first)
    by (rewrite map_app; cbn [map]; rewrite removelast_last; reflexivity).
  destruct (first ++ [(s, v)]) eqn:E; [destruct first; discriminate|]. rewrite <- E in *. clear E.
  destruct (input_blindings ty inputs) as [r| |]; cbn [rbind]; [|reflexivity|reflexivity].
  destruct (pd_balance P _ _) as [bb|]; cbn [rbind expect]; [|reflexivity].
  rewrite set_last_snoc, map_app. cbn [map fst snd rv_value rv_blinding rv_tag].
  rewrite typed_ok; [reflexivity|destruct first; discriminate|].
  unfold len in *. rewrite app_length, ?map_length in *. exact Hl.
Qed.

(** ** Entry by entry *)
Lemma rmap_entries_ok {A B} (f : N -> A -> result BuilderError B) m r : rmap_entries f m = Ok r ->
  map fst r = map fst m /\
  (forall k a, mget k m = Some a -> exists y, mget k r = Some y /\ f k a = Ok y).
Proof.
  revert r. induction m as [|[k a] m IH]; intros r; cbn [rmap_entries].
  - intros [= <-]. split; [reflexivity|]. discriminate.
  - rewrite rbind_ok. intros (y & Ey & H). apply rbind_ok in H as (r' & Er & [= <-]). destruct (IH _ Er) as [H1 H2]. split; [cbn; rewrite H1; reflexivity|].
    intros k' a'. cbn [mget]. destruct (keqb k' k) eqn:E; [|apply H2]. apply keqb_true in E. subst k'. intros [= <-]. eauto.
Qed.
Lemma rmap_entries_all {A B} (f : N -> A -> result BuilderError B) m : (forall k a, In (k, a) m -> exists y, f k a = Ok y) -> exists r, rmap_entries f m = Ok r.
Proof.
  induction m as [|[k a] m IH]; intros H; [cbn; eauto|]. cbn. destruct (H k a (or_introl eq_refl)) as [y ->].
  destruct IH as [r ->]; [intros; apply H; right; assumption|]. cbn. eauto.
Qed.
Lemma rmap_entries_no_err {A B} (f : N -> A -> result BuilderError B) m e : (forall k a, In (k, a) m -> f k a <> Err e) -> rmap_entries f m <> Err e.
Proof.
  induction m as [|[k a] m IH]; intros H; cbn; [discriminate|]. specialize (H k a (or_introl eq_refl)) as H0.
  destruct (f k a) as [y| |]; cbn; [|congruence|discriminate].
  assert (rmap_entries f m <> Err e) as Hm by (apply IH; intros; apply H; right; assumption).
  destruct (rmap_entries f m); cbn; congruence.
Qed.

Lemma sorted_of_keys {V W} (m : omap N V) (r : omap N W) : map fst r = map fst m -> msorted m -> msorted r.
Proof.
  revert r. induction m as [|[k v] m IH]; intros [|[k' w] r] E Hs; try discriminate; [constructor|].
  cbn in E. injection E as -> E. apply msorted_inv in Hs as [Hs Hf]. constructor; [apply IH; assumption|].
  apply Forall_forall. intros [k2 w2] Hi. unfold key_lt. cbn.
  assert (In k2 (map fst m)) as Hk by (rewrite <- E; apply (in_map fst) in Hi; exact Hi).
  apply in_map_iff in Hk as ([k3 v3] & E3 & Hi3). cbn in E3. subst k3. rewrite Forall_forall in Hf. apply (Hf _ Hi3).
Qed.

Lemma extend_ok (a m : Assignments) : msorted a -> NoDup (map fst m) -> (forall k, In k (map fst m) -> mget k a = None) ->
  len a + len m <= 255 ->
  exists r, extend_assigns a m = Ok r /\ msorted r /\ (forall k, mget k r = match mget k a with Some t => Some t | None => mget k m end) /\
    len r = len a + len m.
Proof.
  unfold extend_assigns. revert a. induction m as [|[k t] m IH]; intros a Hs Hn Hd Hl.
  - exists a. cbn. split; [reflexivity|]. split; [exact Hs|]. split; [|unfold len; cbn; lia]. intros k. destruct (mget k a); reflexivity.
  - cbn [map fst] in Hn. apply NoDup_cons_iff in Hn as [Hni Hn].
    assert (mget k a = None) as Hk by (apply Hd; left; reflexivity).
    assert (len ((k, t) :: m) = 1 + len m) as El by (unfold len; cbn [length]; lia). rewrite El in Hl.
    cbn [rfold fst snd]. unfold cinsert at 1. assert (len a <? U8MAX = true) as -> by (apply N.ltb_lt; unfold U8MAX; lia). cbn [expect rbind].
    assert (len (minsert k t a) = len a + 1) as El2.
    { unfold len. rewrite length_insert by exact Hs. unfold mhas. rewrite Hk. lia. }
    destruct (IH (minsert k t a)) as (r & Hr & Hrs & Hrg & Hrl).
    + apply minsert_sorted. exact Hs.
    + exact Hn.
    + intros k' Hi. rewrite mget_insert_ne; [apply Hd; right; exact Hi|]. intros ->. contradiction.
    + rewrite El2. lia.
    + exists r. split; [exact Hr|]. split; [exact Hrs|]. split; [|rewrite Hrl, El2, El; lia].
      intros k'. rewrite Hrg, mget_insert. cbn [mget]. destruct (keqb k' k) eqn:E; [|reflexivity].
      apply keqb_true in E. subst k'. rewrite Hk. reflexivity.
Qed.

(** ** The assignments of the operation *)
Definition entry_ok (P : Pedersen) (inputs : list (Opout * RState)) (k : StateKind) (ty : N) (x : list (BSeal * RState)) (t : TypedAssigns) : Prop :=
  ta_kind t = k /\
  match k with
  | KFungible => exists first s v b0 tag bl,
      x = first ++ [(s, RAmount v b0 tag)] /\
      ta_list t = map (fun p => assigned (fst p) (snd p)) first ++ [assigned s (RAmount v bl tag)] /\
      (forall o st, In (o, st) (inputs_of ty inputs) -> kind_of st = KFungible) /\
      pd_balance P (input_blinds P (inputs_of ty inputs)) (blindings first) = Some bl
  | _ => Permutation (ta_list t) (map (fun p => assigned (fst p) (snd p)) x)
  end.

Lemma blinds_same P ty inputs r : input_blindings ty inputs = Ok r ->
  match r with [] => [pd_empty P] | _ => r end = input_blinds P (inputs_of ty inputs).
Proof. intros E. apply input_blindings_ok in E as [_ ->]. destruct (inputs_of ty inputs); reflexivity. Qed.

Lemma blindings_amt (first : list (BSeal * RValue)) : blindings (mmap amt first) = map (fun p => rv_blinding (snd p)) first.
Proof. unfold blindings, mmap. rewrite map_map. apply map_ext. intros [s v]. reflexivity. Qed.
Lemma assigned_amt (first : list (BSeal * RValue)) :
  map (fun p => assigned (fst p) (snd p)) (mmap amt first) = map (fun p => assigned (fst p) (amt (snd p))) first.
Proof. unfold mmap. rewrite map_map. apply map_ext. intros [s v]. reflexivity. Qed.
Lemma mmap_app {K V W} (f : V -> W) (l1 l2 : list (K * V)) : mmap f (l1 ++ l2) = mmap f l1 ++ mmap f l2.
Proof. unfold mmap. apply map_app. Qed.
Lemma len_mmap' {K V W} (f : V -> W) (l : list (K * V)) : len (mmap f l) = len l.
Proof. unfold len, mmap. rewrite map_length. reflexivity. Qed.

Lemma NoDup_app_intro {A} (l1 l2 : list A) : NoDup l1 -> NoDup l2 -> (forall x, In x l1 -> ~ In x l2) -> NoDup (l1 ++ l2).
Proof.
  induction l1 as [|a l1 IH]; intros H1 H2 Hd; [exact H2|]. apply NoDup_cons_iff in H1 as [Hn H1]. cbn. constructor.
  - rewrite in_app_iff. intros [Hi|Hi]; [contradiction|]. apply (Hd a); [left; reflexivity|exact Hi].
  - apply IH; [exact H1|exact H2|]. intros x Hi. apply Hd. right. exact Hi.
Qed.

Lemma len_keys {V W} (m : omap N V) (m' : omap N W) : map fst m = map fst m' -> len m = len m'.
Proof. intros E. apply (f_equal (@length N)) in E. rewrite !map_length in E. exact (f_equal N.of_nat E). Qed.

Section Done.
  Context (X : BuildCtx) (b : OpBuilder) (l : list Item) (R : repr X b l).
  Context (P : Pedersen) (order : list BSeal -> list BSeal) (Ho : forall s, Permutation (order s) s).
  Context (Hsch : len (fs_owned (bc_schema X)) <= 255).
  Context (inputs : list (Opout * RState)).

  Lemma slot_nonempty k ty x : mget ty (slot k b) = Some x -> x <> [] /\ len x <= 65535.
  Proof. intros H. destruct (rp_slot _ _ _ R k) as [_ Hk]. specialize (Hk ty). rewrite H in Hk. tauto. Qed.

  Lemma entry_fungible ty raw t : mget ty (ob_fungible b) = Some raw -> complete_fungible P inputs ty raw = Ok t ->
    entry_ok P inputs KFungible ty (mmap amt raw) t.
  Proof.
    intros Hm. assert (mget ty (slot KFungible b) = Some (mmap amt raw)) as Hs by (cbn [slot]; rewrite mget_mmap, Hm; reflexivity).
    destruct (slot_nonempty _ _ _ Hs) as [Hn Hl]. rewrite len_mmap' in Hl.
    destruct (@exists_last _ raw) as (first & [s v] & ->); [intros ->; apply Hn; reflexivity|].
    rewrite complete_fungible_ok by exact Hl. destruct (input_blindings ty inputs) as [r| |] eqn:Er; try discriminate.
    rewrite (blinds_same P ty inputs r Er), <- blindings_amt. destruct (pd_balance P _ _) as [bl|] eqn:Eb; [|discriminate]. intros [= <-].
    split; [reflexivity|]. exists (mmap amt first), s, (rv_value v), (rv_blinding v), (rv_tag v), bl.
    split; [rewrite mmap_app; reflexivity|]. split; [cbn [ta_list]; rewrite assigned_amt; reflexivity|]. apply input_blindings_ok in Er as [Hr _]. auto.
  Qed.

  Lemma fungible_can ty raw : mget ty (ob_fungible b) = Some raw ->
    (forall o st, In (o, st) (inputs_of ty inputs) -> kind_of st = KFungible) ->
    (forall first last, mmap amt raw = first ++ [last] -> exists bl, pd_balance P (input_blinds P (inputs_of ty inputs)) (blindings first) = Some bl) ->
    exists t, complete_fungible P inputs ty raw = Ok t.
  Proof.
    intros Hm Hi Hb. assert (mget ty (slot KFungible b) = Some (mmap amt raw)) as Hs by (cbn [slot]; rewrite mget_mmap, Hm; reflexivity).
    destruct (slot_nonempty _ _ _ Hs) as [Hn Hl]. rewrite len_mmap' in Hl.
    destruct (@exists_last _ raw) as (first & [s v] & ->); [intros ->; apply Hn; reflexivity|].
    rewrite complete_fungible_ok by exact Hl.
    assert (input_blindings ty inputs = Ok (map (fun p => blinding_of (snd p)) (inputs_of ty inputs))) as Er by (apply input_blindings_ok; auto).
    rewrite Er, (blinds_same P ty inputs _ Er), <- blindings_amt.
    destruct (Hb (mmap amt first) (s, amt v)) as [bl ->]; [rewrite mmap_app; reflexivity|]. eauto.
  Qed.

  Lemma fungible_no_err ty raw e : mget ty (ob_fungible b) = Some raw -> complete_fungible P inputs ty raw <> Err e.
  Proof.
    intros Hm. assert (mget ty (slot KFungible b) = Some (mmap amt raw)) as Hs by (cbn [slot]; rewrite mget_mmap, Hm; reflexivity).
    destruct (slot_nonempty _ _ _ Hs) as [Hn Hl]. rewrite len_mmap' in Hl.
    destruct (@exists_last _ raw) as (first & [s v] & ->); [intros ->; apply Hn; reflexivity|].
    rewrite complete_fungible_ok by exact Hl. pose proof (input_blindings_no_err ty inputs e).
    destruct (input_blindings ty inputs) as [r| |]; try congruence. destruct (pd_balance P _ _); discriminate.
  Qed.

  Lemma entry_data ty raw : mget ty (ob_data b) = Some raw ->
    exists t, typed_assigns KStructured (map (fun p => assign_of (fst p) (RData (fst (snd p)) (snd (snd p)))) raw) = Ok t /\
      entry_ok P inputs KStructured ty (mmap dat raw) t.
  Proof.
    intros Hm. assert (mget ty (slot KStructured b) = Some (mmap dat raw)) as Hs by (cbn [slot]; rewrite mget_mmap, Hm; reflexivity).
    destruct (slot_nonempty _ _ _ Hs) as [Hn Hl]. rewrite len_mmap' in Hl. rewrite typed_ok.
    - eexists. split; [reflexivity|]. split; [reflexivity|]. cbn [ta_list]. unfold mmap. rewrite map_map. apply Permutation_refl.
    - destruct raw; [contradiction|discriminate].
    - unfold len in *. rewrite map_length. exact Hl.
  Qed.
  Lemma entry_attach ty raw : mget ty (ob_attach b) = Some raw ->
    exists t, typed_assigns KAttachment (map (fun p => assign_of (fst p) (RAttach (fst (snd p)) (snd (snd p)))) raw) = Ok t /\
      entry_ok P inputs KAttachment ty (mmap att raw) t.
  Proof.
    intros Hm. assert (mget ty (slot KAttachment b) = Some (mmap att raw)) as Hs by (cbn [slot]; rewrite mget_mmap, Hm; reflexivity).
    destruct (slot_nonempty _ _ _ Hs) as [Hn Hl]. rewrite len_mmap' in Hl. rewrite typed_ok.
    - eexists. split; [reflexivity|]. split; [reflexivity|]. cbn [ta_list]. unfold mmap. rewrite map_map. apply Permutation_refl.
    - destruct raw; [contradiction|discriminate].
    - unfold len in *. rewrite map_length. exact Hl.
  Qed.
  Lemma entry_rights ty raw : mget ty (ob_rights b) = Some raw ->
    exists t, typed_assigns KDeclarative (map (fun s => assign_of s RVoid) (order raw)) = Ok t /\
      entry_ok P inputs KDeclarative ty (void_map raw) t.
  Proof.
    intros Hm. assert (mget ty (slot KDeclarative b) = Some (void_map raw)) as Hs by (cbn [slot]; rewrite mget_mmap, Hm; reflexivity).
    destruct (slot_nonempty _ _ _ Hs) as [Hn Hl]. rewrite typed_ok.
    - eexists. split; [reflexivity|]. split; [reflexivity|]. cbn [ta_list]. unfold void_map. rewrite map_map. apply Permutation_map. apply Ho.
    - intros E. apply map_eq_nil in E. specialize (Ho raw). rewrite E in Ho. apply Permutation_nil in Ho. subst raw. apply Hn. reflexivity.
    - unfold len, void_map in *. rewrite map_length in *. rewrite (Permutation_length (Ho raw)). exact Hl.
  Qed.

  Lemma slot_keys k ty : (exists x, mget ty (slot k b) = Some x) <-> In ty (map fst (slot k b)).
  Proof. symmetry. apply mget_Some_in. Qed.
  Lemma keys_mmap {V W} (f : V -> W) (m : omap N V) : map fst (mmap f m) = map fst m.
  Proof. unfold mmap. rewrite map_map. reflexivity. Qed.
  Lemma slots_disjoint k k' ty : In ty (map fst (slot k b)) -> In ty (map fst (slot k' b)) -> k = k'.
  Proof. intros H H'. apply slot_keys in H as (x & H), H' as (x' & H'). exact (held_once X b l R k k' ty x x' H H'). Qed.
  Lemma slot_nodup k : NoDup (map fst (slot k b)).
  Proof. apply msorted_NoDup. apply (rp_slot _ _ _ R k). Qed.

  Lemma slots_bound : len (slot KFungible b) + len (slot KStructured b) + len (slot KDeclarative b) + len (slot KAttachment b) <= 255.
  Proof.
    pose (keys := map fst (slot KFungible b) ++ map fst (slot KStructured b) ++ map fst (slot KDeclarative b) ++ map fst (slot KAttachment b)).
    assert (NoDup keys) as Hn.
    { unfold keys. repeat (apply NoDup_app_intro; [apply slot_nodup| |]); try apply slot_nodup.
      all: intros ty Hi; rewrite ?in_app_iff; intros Hj; repeat destruct Hj as [Hj|Hj];
           match goal with A : In ty _, B : In ty _ |- _ => pose proof (slots_disjoint _ _ ty A B); discriminate end. }
    assert (incl keys (map fst (fs_owned (bc_schema X)))) as Hi.
    { intros ty Hi. unfold keys in Hi. rewrite !in_app_iff in Hi. repeat destruct Hi as [Hi|Hi];
        match goal with A : In ty _ |- _ => apply slot_keys in A as (x & A); exact (held_schema X b l R _ ty x A) end. }
    pose proof (NoDup_incl_length Hn Hi) as Hle. unfold keys in Hle. rewrite !app_length, !map_length in Hle. unfold len in *. lia.
  Qed.

  Lemma complete_held a : complete P order inputs b = Ok a ->
    msorted a /\
    forall ty, (forall k x, mget ty (slot k b) = Some x -> exists t, mget ty a = Some t /\ entry_ok P inputs k ty x t) /\
               ((forall k, mget ty (slot k b) = None) -> mget ty a = None).
  Proof.
    unfold complete. intros H.
    apply rbind_ok in H as (fu & Ef & H). apply rbind_ok in H as (da & Ed & H). apply rbind_ok in H as (ri & Er & H). apply rbind_ok in H as (at' & Ea & H).
    apply rmap_entries_ok in Ef as [Kf Gf]. apply rmap_entries_ok in Ed as [Kd Gd]. apply rmap_entries_ok in Er as [Kr Gr]. apply rmap_entries_ok in Ea as [Ka Ga].
    assert (Kf' : map fst fu = map fst (slot KFungible b)) by (cbn [slot]; rewrite keys_mmap; exact Kf).
    assert (Kd' : map fst da = map fst (slot KStructured b)) by (cbn [slot]; rewrite keys_mmap; exact Kd).
    assert (Kr' : map fst ri = map fst (slot KDeclarative b)) by (cbn [slot]; rewrite keys_mmap; exact Kr).
    assert (Ka' : map fst at' = map fst (slot KAttachment b)) by (cbn [slot]; rewrite keys_mmap; exact Ka).
    pose proof slots_bound as Hb.
    assert (Hlen : forall (m : Assignments) k, map fst m = map fst (slot k b) -> len m = len (slot k b)).
    { intros m k E. apply len_keys. exact E. }
    assert (Hnone : forall (m : Assignments) k, map fst m = map fst (slot k b) -> forall ty, ~ In ty (map fst (slot k b)) -> mget ty m = None).
    { intros m k E ty Hn. apply mget_None_notin. intros Hi. apply Hn. rewrite <- E. exact Hi. }
    destruct (extend_ok fu da) as (a1 & E1 & S1 & G1 & L1).
    { eapply sorted_of_keys; [exact Kf'|]. apply (rp_slot _ _ _ R KFungible). }
    { rewrite Kd'. apply slot_nodup. }
    { intros ty Hi. rewrite Kd' in Hi. apply (Hnone fu KFungible Kf'). intros Hj. pose proof (slots_disjoint _ _ ty Hi Hj). discriminate. }
    { rewrite (Hlen fu _ Kf'), (Hlen da _ Kd'). lia. }
    rewrite (Hlen fu _ Kf'), (Hlen da _ Kd') in L1.
    rewrite E1 in H. cbn [rbind] in H.
    destruct (extend_ok a1 ri) as (a2 & E2 & S2 & G2 & L2).
    { exact S1. }
    { rewrite Kr'. apply slot_nodup. }
    { intros ty Hi. rewrite Kr' in Hi. rewrite G1, (Hnone fu KFungible Kf'), (Hnone da KStructured Kd'); [reflexivity| |];
        intros Hj; pose proof (slots_disjoint _ _ ty Hi Hj); discriminate. }
    { rewrite L1, (Hlen ri _ Kr'). lia. }
    rewrite L1, (Hlen ri _ Kr') in L2.
    rewrite E2 in H. cbn [rbind] in H.
    destruct (extend_ok a2 at') as (a3 & E3 & S3 & G3 & L3).
    { exact S2. }
    { rewrite Ka'. apply slot_nodup. }
    { intros ty Hi. rewrite Ka' in Hi. rewrite G2, G1, (Hnone fu KFungible Kf'), (Hnone da KStructured Kd'), (Hnone ri KDeclarative Kr'); [reflexivity| | |];
        intros Hj; pose proof (slots_disjoint _ _ ty Hi Hj); discriminate. }
    { rewrite L2, (Hlen at' _ Ka'). lia. }
    rewrite E3 in H. apply Ok_inj in H. subst a3. split; [exact S3|].
    assert (Hno : forall k k' ty x, mget ty (slot k b) = Some x -> k' <> k -> ~ In ty (map fst (slot k' b))).
    { intros k k' ty x Hx Hne Hi. apply Hne. eapply slots_disjoint; [exact Hi|]. apply slot_keys. eauto. }
    intros ty. split.
    - intros k x Hx. rewrite G3, G2, G1. pose proof Hx as Hx0. destruct k; cbn [slot] in Hx; rewrite mget_mmap in Hx.
      + destruct (mget ty (ob_rights b)) as [raw|] eqn:Em; [|discriminate]. cbn in Hx. injection Hx as <-. destruct (Gr ty raw Em) as (t & Gt & Et). exists t. rewrite (Hnone fu KFungible Kf'), (Hnone da KStructured Kd'), Gt by (eapply Hno; [exact Hx0|discriminate]).
        split; [reflexivity|]. destruct (entry_rights ty raw Em) as (t' & Et' & Hok). rewrite Et in Et'. apply Ok_inj in Et'. subst. exact Hok.
      + destruct (mget ty (ob_fungible b)) as [raw|] eqn:Em; [|discriminate]. cbn in Hx. injection Hx as <-. destruct (Gf ty raw Em) as (t & Gt & Et). exists t. rewrite Gt. split; [reflexivity|]. exact (entry_fungible ty raw t Em Et).
      + destruct (mget ty (ob_data b)) as [raw|] eqn:Em; [|discriminate]. cbn in Hx. injection Hx as <-. destruct (Gd ty raw Em) as (t & Gt & Et). exists t. rewrite (Hnone fu KFungible Kf'), Gt by (eapply Hno; [exact Hx0|discriminate]).
        split; [reflexivity|]. destruct (entry_data ty raw Em) as (t' & Et' & Hok). rewrite Et in Et'. apply Ok_inj in Et'. subst. exact Hok.
      + destruct (mget ty (ob_attach b)) as [raw|] eqn:Em; [|discriminate]. cbn in Hx. injection Hx as <-. destruct (Ga ty raw Em) as (t & Gt & Et). exists t.
        rewrite (Hnone fu KFungible Kf'), (Hnone da KStructured Kd'), (Hnone ri KDeclarative Kr'), Gt by (eapply Hno; [exact Hx0|discriminate]).
        split; [reflexivity|]. destruct (entry_attach ty raw Em) as (t' & Et' & Hok). rewrite Et in Et'. apply Ok_inj in Et'. subst. exact Hok.
    - intros Hn. assert (Hn' : forall k, ~ In ty (map fst (slot k b))) by (intros k; apply mget_None_notin; apply Hn).
      rewrite G3, G2, G1, (Hnone fu KFungible Kf'), (Hnone da KStructured Kd'), (Hnone ri KDeclarative Kr'), (Hnone at' KAttachment Ka'); auto.
  Qed.

  Lemma complete_can : (forall ty raw, mget ty (ob_fungible b) = Some raw -> exists t, complete_fungible P inputs ty raw = Ok t) ->
    exists a, complete P order inputs b = Ok a.
  Proof.
    intros Hf. unfold complete.
    assert (Hget : forall k ty x, In (ty, x) (slot k b) -> mget ty (slot k b) = Some x).
    { intros k ty x Hi. apply In_mget; [apply (rp_slot _ _ _ R k)|exact Hi]. }
    destruct (rmap_entries_all (complete_fungible P inputs) (ob_fungible b)) as [fu Ef].
    { intros ty raw Hi. apply Hf. apply In_mget; [|exact Hi]. eapply sorted_of_keys; [|apply (rp_slot _ _ _ R KFungible)]. cbn [slot]. symmetry. apply keys_mmap. }
    destruct (rmap_entries_all (fun _ l => typed_assigns KStructured (map (fun p => assign_of (fst p) (RData (fst (snd p)) (snd (snd p)))) l)) (ob_data b)) as [da Ed].
    { intros ty raw Hi. destruct (entry_data ty raw) as (t & -> & _); [|eauto]. apply In_mget; [|exact Hi].
      eapply sorted_of_keys; [|apply (rp_slot _ _ _ R KStructured)]. cbn [slot]. symmetry. apply keys_mmap. }
    destruct (rmap_entries_all (fun _ l => typed_assigns KDeclarative (map (fun s => assign_of s RVoid) (order l))) (ob_rights b)) as [ri Er].
    { intros ty raw Hi. destruct (entry_rights ty raw) as (t & -> & _); [|eauto]. apply In_mget; [|exact Hi].
      eapply sorted_of_keys; [|apply (rp_slot _ _ _ R KDeclarative)]. cbn [slot]. symmetry. apply keys_mmap. }
    destruct (rmap_entries_all (fun _ l => typed_assigns KAttachment (map (fun p => assign_of (fst p) (RAttach (fst (snd p)) (snd (snd p)))) l)) (ob_attach b)) as [at' Ea].
    { intros ty raw Hi. destruct (entry_attach ty raw) as (t & -> & _); [|eauto]. apply In_mget; [|exact Hi].
      eapply sorted_of_keys; [|apply (rp_slot _ _ _ R KAttachment)]. cbn [slot]. symmetry. apply keys_mmap. }
    rewrite Ef, Ed, Er, Ea. cbn [rbind].
    apply rmap_entries_ok in Ef as [Kf _]. apply rmap_entries_ok in Ed as [Kd _]. apply rmap_entries_ok in Er as [Kr _]. apply rmap_entries_ok in Ea as [Ka _].
    assert (Kf' : map fst fu = map fst (slot KFungible b)) by (cbn [slot]; rewrite keys_mmap; exact Kf).
    assert (Kd' : map fst da = map fst (slot KStructured b)) by (cbn [slot]; rewrite keys_mmap; exact Kd).
    assert (Kr' : map fst ri = map fst (slot KDeclarative b)) by (cbn [slot]; rewrite keys_mmap; exact Kr).
    assert (Ka' : map fst at' = map fst (slot KAttachment b)) by (cbn [slot]; rewrite keys_mmap; exact Ka).
    pose proof slots_bound as Hb.
    assert (Hlen : forall (m : Assignments) k, map fst m = map fst (slot k b) -> len m = len (slot k b)).
    { intros m k E. apply len_keys. exact E. }
    assert (Hnone : forall (m : Assignments) k, map fst m = map fst (slot k b) -> forall ty, ~ In ty (map fst (slot k b)) -> mget ty m = None).
    { intros m k E ty Hn. apply mget_None_notin. intros Hi. apply Hn. rewrite <- E. exact Hi. }
    destruct (extend_ok fu da) as (a1 & E1 & S1 & G1 & L1).
    { eapply sorted_of_keys; [exact Kf'|]. apply (rp_slot _ _ _ R KFungible). }
    { rewrite Kd'. apply slot_nodup. }
    { intros ty Hi. rewrite Kd' in Hi. apply (Hnone fu KFungible Kf'). intros Hj. pose proof (slots_disjoint _ _ ty Hi Hj). discriminate. }
    { rewrite (Hlen fu _ Kf'), (Hlen da _ Kd'). lia. }
    rewrite (Hlen fu _ Kf'), (Hlen da _ Kd') in L1. rewrite E1. cbn [rbind].
    destruct (extend_ok a1 ri) as (a2 & E2 & S2 & G2 & L2).
    { exact S1. }
    { rewrite Kr'. apply slot_nodup. }
    { intros ty Hi. rewrite Kr' in Hi. rewrite G1, (Hnone fu KFungible Kf'), (Hnone da KStructured Kd'); [reflexivity| |];
        intros Hj; pose proof (slots_disjoint _ _ ty Hi Hj); discriminate. }
    { rewrite L1, (Hlen ri _ Kr'). lia. }
    rewrite L1, (Hlen ri _ Kr') in L2. rewrite E2. cbn [rbind].
    destruct (extend_ok a2 at') as (a3 & E3 & _).
    { exact S2. }
    { rewrite Ka'. apply slot_nodup. }
    { intros ty Hi. rewrite Ka' in Hi. rewrite G2, G1, (Hnone fu KFungible Kf'), (Hnone da KStructured Kd'), (Hnone ri KDeclarative Kr'); [reflexivity| | |];
        intros Hj; pose proof (slots_disjoint _ _ ty Hi Hj); discriminate. }
    { rewrite L2, (Hlen at' _ Ka'). lia. }
    eauto.
  Qed.

  Lemma complete_no_err e : complete P order inputs b <> Err e.
  Proof.
    unfold complete. destruct (rmap_entries (complete_fungible P inputs) (ob_fungible b)) as [fu|e0|] eqn:Ef; cbn [rbind]; [|intros [= ->]|discriminate].
    - assert (exists a, complete P order inputs b = Ok a) as [a Ha].
      { apply complete_can. intros ty raw Hm. apply rmap_entries_ok in Ef as [_ Gf]. destruct (Gf ty raw Hm) as (t & _ & Et). eauto. }
      unfold complete in Ha. rewrite Ef in Ha. cbn [rbind] in Ha. rewrite Ha. discriminate.
    - revert Ef. apply rmap_entries_no_err. intros ty raw Hi. apply fungible_no_err.
      apply In_mget; [|exact Hi]. eapply sorted_of_keys; [|apply (rp_slot _ _ _ R KFungible)]. cbn [slot]. symmetry. apply keys_mmap.
  Qed.

End Done.

(** ** What it means *)
Lemma in_order_unique {K V} `{OrdKey K} (l x x' : list (K * V)) : in_order l x -> in_order l x' -> x = x'.
Proof.
  intros [P1 S1] [P2 S2]. assert (Permutation x x') as Hp by (rewrite <- P1; exact P2). clear P1 P2.
  revert x' S2 Hp. induction x as [|p x IH]; intros x' S2 Hp; [apply Permutation_nil in Hp; auto|].
  destruct x' as [|p' x']; [apply Permutation_sym, Permutation_nil in Hp; discriminate|].
  inversion_clear S1 as [|? ? S1' F1]. inversion_clear S2 as [|? ? S2' F2]. rewrite Forall_forall in F1, F2.
  assert (p = p') as ->.
  { assert (In p (p' :: x')) as H1 by (eapply Permutation_in; [exact Hp|left; reflexivity]).
    assert (In p' (p :: x)) as H2 by (eapply Permutation_in; [symmetry; exact Hp|left; reflexivity]).
    destruct H1 as [->|H1]; [reflexivity|]. destruct H2 as [->|H2]; [reflexivity|]. exfalso.
    specialize (F1 _ H2). specialize (F2 _ H1). rewrite (cmp_opp (fst p') (fst p)) in F1. rewrite F2 in F1. discriminate. }
  f_equal. apply IH; [exact S1'|exact S2'|]. eapply Permutation_cons_inv. exact Hp.
Qed.

Lemma filter_perm {A} (f : A -> bool) l l' : Permutation l l' -> Permutation (filter f l) (filter f l').
Proof.
  induction 1 as [|a l l' _ IH|a a' l|l1 l2 l3 _ IH1 _ IH2]; cbn.
  - constructor.
  - destruct (f a); [constructor|]; exact IH.
  - destruct (f a), (f a'); try apply Permutation_refl. apply perm_swap.
  - eapply Permutation_trans; eassumption.
Qed.
Lemma filter_ssorted {A} (R : A -> A -> Prop) (f : A -> bool) l : StronglySorted R l -> StronglySorted R (filter f l).
Proof.
  induction 1 as [|a l Hs IH Hf]; cbn; [constructor|]. destruct (f a); [|exact IH]. constructor; [exact IH|].
  rewrite Forall_forall in *. intros x Hi. apply filter_In in Hi as [Hi _]. auto.
Qed.
Lemma in_order_filter {K V} `{OrdKey K} (f : K * V -> bool) l x : in_order l x -> in_order (filter f l) (filter f x).
Proof. intros [Hp Hs]. split; [apply filter_perm; exact Hp|apply filter_ssorted; exact Hs]. Qed.

Lemma kept_in_order {K V} `{OrdKey K} (l : list (K * V)) (m : omap K V) : msorted m -> (forall k, mget k m = latest l k) -> in_order (kept l) m.
Proof.
  intros Hs Hg. split; [|exact Hs]. apply NoDup_Permutation.
  - eapply NoDup_map_inv. apply kept_NoDup.
  - eapply NoDup_map_inv. apply msorted_NoDup. exact Hs.
  - intros [k v]. rewrite kept_In, <- Hg. split; intros Hi; [apply mget_In|apply In_mget]; assumption.
Qed.

Lemma input_blinds_perm P i i' : Permutation i i' -> list_sum (input_blinds P i) = list_sum (input_blinds P i').
Proof.
  intros Hp. unfold input_blinds. destruct i as [|p i].
  - apply Permutation_nil in Hp. subst. reflexivity.
  - destruct i' as [|p' i']; [apply Permutation_sym, Permutation_nil in Hp; discriminate|].
    apply list_sum_perm. apply Permutation_map. exact Hp.
Qed.

Section Shown.
  Context (X : BuildCtx) (b : OpBuilder) (l : list Item) (R : repr X b l).
  Context (P : Pedersen) (order : list BSeal -> list BSeal) (Ho : forall s, Permutation (order s) s).
  Context (Hsch : len (fs_owned (bc_schema X)) <= 255).
  Context (inputs : list (Opout * RState)) (a : Assignments) (Ha : complete P order inputs b = Ok a).

  Lemma unblinded_assigned s st : unblinded (assigned s st) = assigned s (unblind st).
  Proof. destruct s; reflexivity. Qed.

  Lemma entry_unblinded k ty x t : entry_ok P inputs k ty x t ->
    Permutation (map unblinded (ta_list t)) (map (fun p => unblinded (assigned (fst p) (snd p))) x).
  Proof.
    intros [_ H]. destruct k.
    1, 3, 4: apply (Permutation_map unblinded) in H; rewrite map_map in H; exact H.
    destruct H as (first & s & v & b0 & tag & bl & -> & -> & _). rewrite !map_app, map_map. cbn [map fst snd].
    rewrite !unblinded_assigned. apply Permutation_refl.
  Qed.

  Lemma slots_cases ty : (exists k x, mget ty (slot k b) = Some x) \/ (forall k, mget ty (slot k b) = None).
  Proof.
    destruct (mget ty (slot KDeclarative b)) as [x|] eqn:E1; [left; eauto|]. destruct (mget ty (slot KFungible b)) as [x|] eqn:E2; [left; eauto|].
    destruct (mget ty (slot KStructured b)) as [x|] eqn:E3; [left; eauto|]. destruct (mget ty (slot KAttachment b)) as [x|] eqn:E4; [left; eauto|].
    right. intros []; assumption.
  Qed.

  Lemma entry_kinds k ty x t y : mget ty (slot k b) = Some x -> entry_ok P inputs k ty x t -> In y (ta_list t) ->
    exists st, revealed_state y = Some st /\ kind_of st = ta_kind t.
  Proof.
    intros Hx [Hk H] Hi. rewrite Hk.
    assert (Hassigned : forall s st, revealed_state (assigned s st) = Some st) by (intros [] ?; reflexivity).
    assert (Hin : forall s st, In (s, st) x -> kind_of st = k) by (intros s st Hs; eapply held_states; eassumption).
    destruct k.
    1, 3, 4: eapply Permutation_in in Hi; [|exact H]; apply in_map_iff in Hi as ([s st] & <- & Hi); exists st; cbn [fst snd]; split; [apply Hassigned|eauto].
    destruct H as (first & s & v & b0 & tag & bl & -> & Et & _). rewrite Et in Hi. apply in_app_or in Hi as [Hi|[<-|[]]].
    - apply in_map_iff in Hi as ([s' st] & <- & Hi). exists st. cbn [fst snd]. split; [apply Hassigned|]. apply (Hin s'). apply in_or_app. left. exact Hi.
    - exists (RAmount v bl tag). split; [apply Hassigned|reflexivity].
  Qed.

  Lemma shown_items o : op_assigns o = a -> op_globals o = ob_global b -> shows_items l o.
  Proof.
    intros Ea Eg. destruct (complete_held X b l R P order Ho Hsch inputs a Ha) as [Hs Hg]. split; [|split].
    - intros ty. rewrite Eg. apply (rp_global _ _ _ R).
    - apply all_for_perm. intros ty. rewrite all_for_map, made_for by (rewrite Ea; exact Hs). rewrite Ea.
      replace (all_for (map (fun p => (fst (fst p), unblinded (assigned (snd (fst p)) (snd p)))) (kept (owned l))) ty)
        with (map (fun p => unblinded (assigned (fst p) (snd p))) (state_of ty (kept (owned l)))).
      2: { rewrite state_of_all, <- all_for_map, map_map. reflexivity. }
      destruct (slots_cases ty) as [(k & x & Hx)|Hn].
      + destruct (proj1 (Hg ty) k x Hx) as (t & -> & He). rewrite (entry_unblinded k ty x t He).
        apply Permutation_map. symmetry. apply (held_ordered X b l R k ty x Hx).
      + rewrite (proj2 (Hg ty) Hn), (held_none X b l R ty Hn). constructor.
    - intros ty t y Ht Hi. rewrite Ea in Ht. destruct (slots_cases ty) as [(k & x & Hx)|Hn].
      + destruct (proj1 (Hg ty) k x Hx) as (t' & Ht' & He). rewrite Ht in Ht'. injection Ht' as <-. eapply entry_kinds; eassumption.
      + rewrite (proj2 (Hg ty) Hn) in Ht. discriminate.
  Qed.

  Lemma fungible_types ty : In ty (types_of KFungible (owned l)) <-> exists x, mget ty (slot KFungible b) = Some x.
  Proof. apply slot_types_some. apply (rp_slot _ _ _ R KFungible). Qed.

  Lemma shown_fungible ty t : mget ty a = Some t -> ta_kind t = KFungible -> In ty (types_of KFungible (owned l)).
  Proof.
    intros Ht Hk. destruct (complete_held X b l R P order Ho Hsch inputs a Ha) as [Hs Hg]. apply fungible_types.
    destruct (slots_cases ty) as [(k & x & Hx)|Hn].
    - destruct (proj1 (Hg ty) k x Hx) as (t' & Ht' & He). rewrite Ht in Ht'. injection Ht' as <-. destruct He as [Hk' _]. rewrite Hk in Hk'. subst k. eauto.
    - rewrite (proj2 (Hg ty) Hn) in Ht. discriminate.
  Qed.

  Lemma shown_balanced q ins0 ty : balances q P -> in_order ins0 inputs -> In ty (types_of KFungible (owned l)) ->
    exists t, mget ty a = Some t /\ ta_kind t = KFungible /\ balanced_type q P (inputs_of ty ins0) (state_of ty (kept (owned l))) t.
  Proof.
    intros Hq Hi Hty. destruct (complete_held X b l R P order Ho Hsch inputs a Ha) as [Hs Hg].
    apply fungible_types in Hty as (x & Hx). destruct (proj1 (Hg ty) _ x Hx) as (t & Ht & Hk & He). exists t. split; [exact Ht|]. split; [exact Hk|].
    destruct He as (first & s & v & b0 & tag & bl & Ex & Et & _ & Eb). exists first, s, v, b0, tag, bl.
    rewrite <- Ex. split; [apply (held_ordered X b l R _ ty x Hx)|]. split; [exact Et|]. rewrite (Hq _ _ _ Eb). f_equal.
    apply input_blinds_perm. symmetry. apply in_order_filter. exact Hi.
  Qed.
End Shown.

Section Can.
  Context (X : BuildCtx) (b : OpBuilder) (l : list Item) (R : repr X b l).
  Context (P : Pedersen) (order : list BSeal -> list BSeal) (Ho : forall s, Permutation (order s) s).
  Context (Hsch : len (fs_owned (bc_schema X)) <= 255).
  Context (inputs ins0 : list (Opout * RState)) (Hi : in_order ins0 inputs).

  Lemma completes_iff : (exists a, complete P order inputs b = Ok a) <->
    (forall ty, In ty (types_of KFungible (owned l)) -> can_balance P (inputs_of ty ins0) (state_of ty (kept (owned l)))).
  Proof.
    split.
    - intros (a & Ha) ty Hty. destruct (complete_held X b l R P order Ho Hsch inputs a Ha) as [Hs Hg].
      apply (fungible_types X b l R) in Hty as (x & Hx). destruct (proj1 (Hg ty) _ x Hx) as (t & Ht & Hk & He).
      destruct He as (first & s & v & b0 & tag & bl & Ex & Et & Hin & Eb). split.
      + intros o st H. apply (Hin o st). eapply Permutation_in; [|exact H]. apply in_order_filter. exact Hi.
      + intros inputs' first' last Hi' Ho'. exists bl.
        rewrite <- (in_order_unique _ _ _ (in_order_filter (fun p => oo_ty (fst p) =? ty) _ _ Hi) Hi').
        pose proof (in_order_unique _ _ _ (held_ordered X b l R _ ty x Hx) Ho') as E. rewrite Ex in E.
        apply app_inj_tail in E as [<- _]. exact Eb.
    - intros H. apply (complete_can X b l R P order Ho Hsch). intros ty raw Hm.
      assert (mget ty (slot KFungible b) = Some (mmap amt raw)) as Hs by (cbn [slot]; rewrite mget_mmap, Hm; reflexivity).
      destruct (H ty) as [Hk Hb]; [apply (fungible_types X b l R); eauto|].
      apply (fungible_can X b l R P inputs ty raw Hm).
      + intros o st Hin. apply (Hk o st). eapply Permutation_in; [|exact Hin]. symmetry. apply in_order_filter. exact Hi.
      + intros first last E. apply (Hb _ first last); [apply in_order_filter; exact Hi|]. rewrite <- E. apply (held_ordered X b l R _ ty _ Hs).
  Qed.
End Can.

(** ** No panics *)
Lemma raw_no_panic X b ty s st : mget ty (fs_owned (bc_schema X)) <> None -> add_owned_raw X b ty s st <> Panic.
Proof.
  intros Hty. assert (forall A (o : option A) e, ok_or e o <> @Panic BuilderError A) as Hok by (intros A [] e; discriminate).
  assert (exists sc, state_schema X ty = Ok sc) as [sc Hsc].
  { unfold state_schema. destruct (mget ty (fs_owned (bc_schema X))); [cbn; eauto|contradiction]. }
  destruct st as [|v bl tag|v salt|f salt]; cbn [add_owned_raw].
  - unfold add_rights_raw. rewrite Hsc. cbn. destruct sc; try discriminate. destruct (match mget ty (ob_rights b) with Some _ => _ | None => _ end); discriminate.
  - unfold asset_tag_raw. destruct (mget ty (ob_tags b)); [|discriminate]. cbn. destruct (_ =? tag); [|discriminate].
    unfold add_fungible_raw. rewrite Hsc. cbn. destruct sc; try discriminate. destruct (put_state _ _ _ _); discriminate.
  - unfold add_data_raw. rewrite Hsc. cbn. destruct sc; try discriminate. destruct (put_state _ _ _ _); discriminate.
  - unfold add_attachment_raw. rewrite Hsc. cbn. destruct sc; try discriminate. destruct (put_state _ _ _ _); discriminate.
Qed.

Lemma ok_or_no_panic {Er A} (e : Er) (o : option A) : ok_or e o <> Panic.
Proof. destruct o; discriminate. Qed.
Lemma rbind_no_panic {Er A B} (m : result Er A) (f : A -> result Er B) : m <> Panic -> (forall a, m = Ok a -> f a <> Panic) -> rbind m f <> Panic.
Proof. destruct m; cbn; [auto|discriminate|congruence]. Qed.
Lemma rmap_no_panic {Er A B} (f : A -> B) (m : result Er A) : m <> Panic -> rmap f m <> Panic.
Proof. destruct m; cbn; [discriminate|discriminate|congruence]. Qed.
Lemma expect_no_panic {Er A} (o : option A) : o <> None -> @expect Er A o <> Panic.
Proof. destruct o; cbn; [discriminate|congruence]. Qed.

Section NoPanic.
  Context (X : BuildCtx) (K : names_known X).

  Lemma named_no_panic {A} name (k : N -> result BuilderError A) :
    (forall ty, mget ty (fs_owned (bc_schema X)) <> None -> k ty <> Panic) -> named X name k <> Panic.
  Proof.
    intros H. unfold named. apply rbind_no_panic; [apply ok_or_no_panic|]. intros ty E. apply ok_or_ok in E. apply H. exact (proj1 K _ _ E).
  Qed.
  Lemma fungible_raw_no_panic b ty s v : mget ty (fs_owned (bc_schema X)) <> None -> add_fungible_raw X b ty s v <> Panic.
  Proof.
    intros H. unfold add_fungible_raw. apply rbind_no_panic; [apply expect_no_panic; exact H|]. intros [] _; try discriminate.
    apply rbind_no_panic; [apply ok_or_no_panic|discriminate].
  Qed.
  Lemma data_raw_no_panic b ty s v : mget ty (fs_owned (bc_schema X)) <> None -> add_data_raw X b ty s v <> Panic.
  Proof.
    intros H. unfold add_data_raw. apply rbind_no_panic; [apply expect_no_panic; exact H|]. intros [] _; try discriminate.
    apply rbind_no_panic; [apply ok_or_no_panic|discriminate].
  Qed.
  Lemma attach_raw_no_panic b ty s v : mget ty (fs_owned (bc_schema X)) <> None -> add_attachment_raw X b ty s v <> Panic.
  Proof.
    intros H. unfold add_attachment_raw. apply rbind_no_panic; [apply expect_no_panic; exact H|]. intros [] _; try discriminate.
    apply rbind_no_panic; [apply ok_or_no_panic|discriminate].
  Qed.
  Lemma rights_raw_no_panic b ty s : mget ty (fs_owned (bc_schema X)) <> None -> add_rights_raw X b ty s <> Panic.
  Proof. intros H. exact (raw_no_panic X b ty s RVoid H). Qed.
  Lemma tag_no_panic b ty tag : add_asset_tag_raw b ty tag <> Panic.
  Proof. unfold add_asset_tag_raw. destruct (mhas _ _); [discriminate|]. apply rbind_no_panic; [apply ok_or_no_panic|discriminate]. Qed.
  Lemma metadata_no_panic b name v : add_metadata X b name v <> Panic.
  Proof.
    unfold add_metadata. apply rbind_no_panic; [apply ok_or_no_panic|]. intros w _. apply rbind_no_panic; [apply ok_or_no_panic|].
    intros ty E. apply ok_or_ok in E. apply rbind_no_panic; [apply expect_no_panic; exact (proj2 (proj2 K) _ _ E)|].
    intros sem _. destruct (bc_fits X sem w); [|discriminate]. destruct (mhas _ _); [discriminate|].
    apply rbind_no_panic; [apply ok_or_no_panic|discriminate].
  Qed.
  Lemma global_no_panic b name v : add_global_state X b name v <> Panic.
  Proof.
    unfold add_global_state. apply rbind_no_panic; [apply ok_or_no_panic|]. intros w _. apply rbind_no_panic; [apply ok_or_no_panic|].
    intros ty E. apply ok_or_ok in E. apply rbind_no_panic; [apply expect_no_panic; exact (proj1 (proj2 K) _ _ E)|].
    intros g _. destruct (bc_fits X (gs_sem g) w); [|discriminate]. apply rbind_no_panic; [apply ok_or_no_panic|discriminate].
  Qed.
  Lemma fungible_state_no_panic b name s v r : add_fungible_state X b name s v r <> Panic.
  Proof.
    unfold add_fungible_state. apply named_no_panic. intros ty H. apply rbind_no_panic; [apply ok_or_no_panic|].
    intros tag _. apply fungible_raw_no_panic. exact H.
  Qed.
  Lemma data_no_panic b name s v r : add_data X b name s v r <> Panic.
  Proof.
    unfold add_data. apply rbind_no_panic; [apply ok_or_no_panic|]. intros w _. apply named_no_panic. intros ty H. apply data_raw_no_panic. exact H.
  Qed.
  Lemma fungible_det_no_panic b name s v bl : tb_add_fungible_det X b name s v bl <> Panic.
  Proof.
    unfold tb_add_fungible_det. apply rbind_no_panic; [apply ok_or_no_panic|]. intros ty E. apply ok_or_ok in E.
    apply rbind_no_panic; [apply ok_or_no_panic|]. intros tag _. apply rbind_no_panic; [|discriminate].
    apply named_no_panic. intros ty' H. apply fungible_raw_no_panic. exact H.
  Qed.
  Lemma default_no_panic b : (exists op, name_of (fm_transitions (bc_impl X)) (tb_type b) = Some op /\ mget op (ff_transitions (bc_iface X)) <> None) ->
    default_assignment X b <> Panic.
  Proof.
    intros (op & E & H). unfold default_assignment. rewrite E. cbn [expect rbind]. apply rbind_no_panic; [apply expect_no_panic; exact H|].
    intros t _. apply ok_or_no_panic.
  Qed.

  Lemma t_no_panic b c : t_known X (tb_type b) c -> t_call X b c <> Panic.
  Proof.
    destruct c; cbn [t_call t_known]; intros Hk.
    - discriminate.
    - apply rmap_no_panic. apply named_no_panic. intros; apply tag_no_panic.
    - apply rmap_no_panic, tag_no_panic.
    - apply rmap_no_panic, metadata_no_panic.
    - apply rmap_no_panic, global_no_panic.
    - unfold add_input. apply rbind_no_panic; [apply ok_or_no_panic|discriminate].
    - apply rmap_no_panic, named_no_panic. intros; apply raw_no_panic; assumption.
    - unfold tb_add_owned_raw. apply rbind_no_panic.
      + destruct st; try discriminate. apply rbind_no_panic; [apply ok_or_no_panic|]. intros t _. destruct (t =? tag); discriminate.
      + intros _ _. apply rbind_no_panic; [apply raw_no_panic; exact Hk|discriminate].
    - apply rmap_no_panic, named_no_panic. intros; apply rights_raw_no_panic; assumption.
    - apply rbind_no_panic; [apply default_no_panic; exact Hk|]. intros; apply rmap_no_panic, fungible_state_no_panic.
    - apply rbind_no_panic; [apply default_no_panic; exact Hk|]. intros; apply fungible_det_no_panic.
    - apply rmap_no_panic, fungible_state_no_panic.
    - apply fungible_det_no_panic.
    - unfold tb_add_fungible_raw. apply rbind_no_panic; [apply ok_or_no_panic|]. intros t _.
      apply rbind_no_panic; [apply fungible_raw_no_panic; exact Hk|discriminate].
    - apply rmap_no_panic, data_no_panic.
    - apply rmap_no_panic, named_no_panic. intros; apply data_raw_no_panic; assumption.
    - unfold tb_add_data_raw. apply rbind_no_panic; [apply data_raw_no_panic; exact Hk|discriminate].
    - apply rbind_no_panic; [apply default_no_panic; exact Hk|]. intros; apply rmap_no_panic, data_no_panic.
    - apply rmap_no_panic, named_no_panic. intros; apply attach_raw_no_panic; assumption.
    - apply rmap_no_panic, named_no_panic. intros; apply attach_raw_no_panic; assumption.
  Qed.

  Lemma layer_no_panic b s : check_layer1 b (bseal_layer X s) <> Panic.
  Proof. unfold check_layer1. destruct (has_layer1 _ _); discriminate. Qed.
  Lemma init_tag_no_panic b name r : init_asset_tag X b name r <> Panic.
  Proof.
    unfold init_asset_tag. apply named_no_panic. intros ty _. destruct (mget ty (ob_tags b)); [discriminate|].
    apply rbind_no_panic; [apply ok_or_no_panic|discriminate].
  Qed.
  Lemma c_no_panic b c : c_call X b c <> Panic.
  Proof.
    destruct c; cbn [c_call]; try discriminate.
    - apply rmap_no_panic. apply named_no_panic. intros; apply tag_no_panic.
    - apply rmap_no_panic, metadata_no_panic.
    - apply rmap_no_panic, global_no_panic.
    - apply rbind_no_panic; [apply layer_no_panic|]. intros _ _. apply rmap_no_panic, named_no_panic. intros; apply raw_no_panic; assumption.
    - apply rbind_no_panic; [apply layer_no_panic|]. intros _ _. apply rmap_no_panic, named_no_panic. intros; apply rights_raw_no_panic; assumption.
    - apply rbind_no_panic; [apply layer_no_panic|]. intros _ _. apply rbind_no_panic; [apply init_tag_no_panic|]. intros r _. apply rmap_no_panic, fungible_state_no_panic.
    - apply rbind_no_panic; [apply layer_no_panic|]. intros _ _. apply rbind_no_panic; [apply init_tag_no_panic|]. intros r _.
      apply rmap_no_panic, named_no_panic. intros; apply fungible_raw_no_panic; assumption.
    - apply rbind_no_panic; [apply layer_no_panic|]. intros _ _. apply rmap_no_panic, data_no_panic.
    - apply rbind_no_panic; [apply layer_no_panic|]. intros _ _. apply rmap_no_panic, named_no_panic. intros; apply data_raw_no_panic; assumption.
    - apply rbind_no_panic; [apply layer_no_panic|]. intros _ _. apply rmap_no_panic, named_no_panic. intros; apply attach_raw_no_panic; assumption.
    - apply rbind_no_panic; [apply layer_no_panic|]. intros _ _. apply rmap_no_panic, named_no_panic. intros; apply attach_raw_no_panic; assumption.
  Qed.
End NoPanic.
