(** Lemmas for C20-C22, C56 *)
From Verif Require Import Base Str.
From Verif Require Import SupplModel SupplSpec.
Local Open Scope N_scope.

Lemma mremove_length {K V} `{OrdKey K} (k : K) (m : omap K V) : msorted m ->
  length (mremove k m) = if mhas k m then pred (length m) else length m.
Proof.
  unfold mhas, mremove. induction m as [|[k' v'] m IH]; cbn [filter mget length fst]; [reflexivity|].
  intros Hs. apply msorted_inv in Hs as [Hs Hf]. specialize (IH Hs).
  destruct (keqb k k') eqn:E; cbn [negb length pred].
  - rewrite IH. apply keqb_true in E. subst k'.
    destruct (mget k m) as [v|] eqn:G; [|reflexivity].
    exfalso. apply mget_In in G. rewrite Forall_forall in Hf. apply Hf in G. unfold key_lt in G.
    cbn [fst] in G. rewrite cmp_refl in G. discriminate.
  - rewrite IH. destruct (mget k m) as [v|] eqn:G; [|reflexivity].
    apply mget_In in G. destruct m; [destruct G|]. reflexivity.
Qed.

Definition all_subs : list SupplSub :=
  [SubItself; SubMeta; SubGlobal; SubOwned; SubValency; SubAssignment; SubGenesis; SubTransition;
   SubExtension; SubException].

Lemma subs_length {V} (m : omap SupplSub V) : msorted m -> (length m <= 10)%nat.
Proof.
  intros Hs. apply msorted_NoDup in Hs. unfold mkeys in Hs.
  rewrite <- (map_length fst m). change 10%nat with (length all_subs).
  apply NoDup_incl_length; [exact Hs|]. intros [] _; cbn; tauto.
Qed.

Lemma annotate_spec {T} (ser : T -> option blob) sub item name data s : suppl_wf s ->
  match ser data with
  | Some bytes =>
      (room s sub item ->
        exists s', annotate ser sub item name data s
                   = (s', Ok (match annotation s sub item name with Some _ => true | None => false end)) /\
                   same_header s s' /\ suppl_wf s' /\
                   forall k, view s' k = if keqb k (sub, item, name) then Some bytes else view s k) /\
      (~ room s sub item ->
        exists s', annotate ser sub item name data s = (s', Err SerConfinement) /\ same_header s s' /\ suppl_wf s' /\
                   forall k, view s' k = if keqb (fst (fst k)) sub then None else view s k)
  | None => exists s', annotate ser sub item name data s = (s', Err SerEncode) /\ same_header s s' /\ suppl_wf s' /\
                   forall k, view s' k = if keqb (fst (fst k)) sub then None else view s k
  end.
Proof.
  intros [Hs Hw].
  set (rest := set_annotations s (mremove sub (sp_annotations s))).
  assert (Hrest : same_header s rest /\ suppl_wf rest /\
            forall k, view rest k = if keqb (fst (fst k)) sub then None else view s k).
  { split; [repeat split|]. split.
    - split; [apply mremove_sorted; exact Hs|]. intros sub' a. cbn [rest set_annotations sp_annotations].
      rewrite mget_remove. destruct (keqb sub' sub); [discriminate|]. apply Hw.
    - intros [[sub' item'] name']. unfold view, annotation. cbn [fst snd rest set_annotations sp_annotations].
      rewrite mget_remove. destruct (keqb sub' sub); reflexivity. }
  unfold annotate. fold rest. cbv zeta.
  destruct (ser data) as [bytes|]; [|exists rest; split; [reflexivity|exact Hrest]].
  set (a := match mget sub (sp_annotations s) with Some a => a | None => [] end).
  set (b := match mget item a with Some b => b | None => [] end).
  assert (Ha : msorted a /\ len a <= U8MAX /\ forall item b, mget item a = Some b -> msorted b /\ len b <= U8MAX).
  { unfold a. destruct (mget sub (sp_annotations s)) as [a'|] eqn:E; [apply (Hw _ _ E)|].
    split; [constructor|]. split; [cbv; discriminate|]. discriminate. }
  destruct Ha as (Ha & Hla & Hai).
  assert (Hb : msorted b /\ len b <= U8MAX).
  { unfold b. destruct (mget item a) as [b'|] eqn:E; [apply (Hai _ _ E)|].
    split; [constructor|cbv; discriminate]. }
  destruct Hb as (Hb & Hlb).
  assert (Hann : forall n, annotation s sub item n = mget n b).
  { intros n. unfold annotation, b, a. destruct (mget sub (sp_annotations s)) as [a'|]; [|reflexivity].
    destruct (mget item a') as [b'|]; reflexivity. }
  assert (Hroom : room s sub item <-> len b < U8MAX /\ len (mremove item a) < U8MAX).
  { unfold room, b, a. destruct (mget sub (sp_annotations s)) as [a'|] eqn:E; cbn [mget].
    - assert (Hl : len (mremove item a') = if mhas item a' then len a' - 1 else len a').
      { unfold len. rewrite mremove_length by (apply (Hw _ _ E)). destruct (mhas item a'); [|reflexivity]. lia. }
      assert (Hla' : len a' <= U8MAX) by (apply (Hw _ _ E)).
      destruct (mget item a') as [b'|] eqn:Eb.
      + replace (mhas item a') with true in Hl by (symmetry; unfold mhas; rewrite Eb; reflexivity).
        assert (0 < len a'). { apply mget_In in Eb. destruct a'; [destruct Eb|]. unfold len. cbn. lia. }
        split; [intros H1; split; lia|tauto].
      + replace (mhas item a') with false in Hl by (symmetry; unfold mhas; rewrite Eb; reflexivity).
        rewrite Hl. split; [intros H1; split; [reflexivity|exact H1]|tauto].
    - split; [|tauto]. intros _. split; reflexivity. }
  split; intros Hr; rewrite Hroom in Hr; unfold cinsert.
  - destruct Hr as [Hr1 Hr2]. apply N.ltb_lt in Hr1, Hr2. rewrite Hr1. match goal with |- context [if ?c then _ else _] => replace c with true by (symmetry; exact Hr2) end.
    assert (Ho : (len (sp_annotations rest) <? U8MAX) = true).
    { apply N.ltb_lt. pose proof (subs_length (sp_annotations rest)) as L.
      assert (Hsr : msorted (sp_annotations rest)) by (apply Hrest). specialize (L Hsr).
      unfold len, U8MAX. lia. }
    match goal with |- context [if ?c then _ else _] => replace c with true by (symmetry; exact Ho) end. eexists. split.
    { f_equal. rewrite Hann. reflexivity. }
    apply N.ltb_lt in Hr1, Hr2.
    assert (Hb' : msorted (minsert name bytes b)) by (apply minsert_sorted; exact Hb).
    assert (Ha' : msorted (minsert item (minsert name bytes b) (mremove item a)))
      by (apply minsert_sorted, mremove_sorted; exact Ha).
    split; [repeat split|]. split.
    + split; [apply minsert_sorted, Hrest|]. cbn [set_annotations sp_annotations rest].
      intros sub' a2. destruct (key_dec sub' sub) as [->|Ns].
      * rewrite mget_insert_eq. intros [= <-]. split; [exact Ha'|]. split.
        { pose proof (length_insert_le item (minsert name bytes b) (mremove item a)). unfold len in *. lia. }
        intros item' b2. destruct (key_dec item' item) as [->|Ni].
        -- rewrite mget_insert_eq. intros [= <-]. split; [exact Hb'|].
           pose proof (length_insert_le name bytes b). unfold len in *. lia.
        -- rewrite mget_insert_ne, mget_remove_ne by congruence. apply Hai.
      * rewrite mget_insert_ne, mget_remove_ne by congruence. apply Hw.
    + intros [[sub' item'] name']. unfold view, annotation. cbn [fst snd set_annotations sp_annotations rest].
      destruct (key_dec sub' sub) as [->|Ns].
      * rewrite mget_insert_eq. destruct (key_dec item' item) as [->|Ni].
        -- rewrite mget_insert_eq. destruct (key_dec name' name) as [->|Nn].
           ++ rewrite mget_insert_eq, keqb_refl. reflexivity.
           ++ rewrite mget_insert_ne by congruence.
              replace (keqb (sub, item, name') (sub, item, name)) with false
                by (symmetry; apply keqb_neq; congruence).
              exact (eq_sym (Hann name')).
        -- rewrite mget_insert_ne, mget_remove_ne by congruence.
           replace (keqb (sub, item', name') (sub, item, name)) with false
             by (symmetry; apply keqb_neq; congruence).
           unfold a. destruct (mget sub (sp_annotations s)); reflexivity.
      * rewrite mget_insert_ne, mget_remove_ne by congruence.
        replace (keqb (sub', item', name') (sub, item, name)) with false
          by (symmetry; apply keqb_neq; congruence). reflexivity.
  - exists rest. split; [|exact Hrest].
    destruct (N.ltb_spec (len b) U8MAX) as [L1|L1]; [|reflexivity].
    destruct (N.ltb_spec (len (mremove item a)) U8MAX) as [L2|L2]; [|reflexivity].
    exfalso. apply Hr. split; assumption.
Qed.

(** ** Files *)
Lemma read_exact_app p d : read_exact (length p) (p ++ d) = Some (p, d).
Proof.
  unfold read_exact. rewrite app_length.
  destruct (Nat.ltb_spec (length p + length d) (length p)); [lia|].
  rewrite firstn_app, Nat.sub_diag, firstn_all, firstn_O, app_nil_r, skipn_app, Nat.sub_diag, skipn_all. reflexivity.
Qed.

Lemma read_exact_Some n d p r : read_exact n d = Some (p, r) <-> d = p ++ r /\ length p = n.
Proof.
  unfold read_exact. destruct (Nat.ltb_spec (length d) n).
  - split; [discriminate|]. intros [-> L]. rewrite app_length in H. lia.
  - split.
    + intros [= <- <-]. split; [symmetry; apply firstn_skipn|apply firstn_length_le; lia].
    + intros [-> <-]. rewrite firstn_app, Nat.sub_diag, firstn_all, firstn_O, app_nil_r,
        skipn_app, Nat.sub_diag, skipn_all. reflexivity.
Qed.

Lemma read_exact_None n d : read_exact n d = None <-> (length d < n)%nat.
Proof. unfold read_exact. destruct (Nat.ltb_spec (length d) n); split; (lia || discriminate || auto). Qed.

Lemma bytes_eqb_eq a b : bytes_eqb a b = true <-> a = b.
Proof. unfold bytes_eqb. destruct (list_eq_dec N.eq_dec a b); split; (congruence || auto). Qed.

Lemma bytes_eqb_refl a : bytes_eqb a a = true.
Proof. apply bytes_eqb_eq. reflexivity. Qed.

Lemma magic_length k : length (magic k) = 3%nat.
Proof. destruct k; reflexivity. Qed.

Lemma magic_inj k k' : magic k = magic k' -> k = k'.
Proof. destruct k, k'; (reflexivity || discriminate). Qed.

Lemma app_len_inj {A} (a b c d : list A) : length a = length c -> a ++ b = c ++ d -> a = c /\ b = d.
Proof.
  revert c. induction a as [|x a IH]; intros [|y c] L E; cbn in *; try discriminate; [auto|].
  injection L as L. injection E as -> E. destruct (IH c L E) as [-> ->]. auto.
Qed.

(** The three outcomes of reading the header *)
Lemma header_read (data : list N) :
  (exists p m r, data = p ++ m ++ r /\ length p = 4%nat /\ length m = 3%nat /\
     read_exact 4 data = Some (p, m ++ r) /\ read_exact 3 (m ++ r) = Some (m, r)) \/
  ((length data < 7)%nat /\
     match read_exact 4 data with None => True | Some (p, d) => read_exact 3 d = None end).
Proof.
  destruct (read_exact 4 data) as [[p d]|] eqn:E1.
  - apply read_exact_Some in E1 as [-> L1]. destruct (read_exact 3 d) as [[m r]|] eqn:E2.
    + apply read_exact_Some in E2 as [-> L2]. left. exists p, m, r.
      repeat split; try assumption. rewrite <- L2. apply read_exact_app.
    + apply read_exact_None in E2. right. rewrite app_length. split; [lia|reflexivity].
  - apply read_exact_None in E1. right. split; [lia|exact I].
Qed.
