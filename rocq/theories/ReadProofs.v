(** * Reading the text of an invoice: proofs for C81 *)
From Coq Require Import Ascii String.
From Verif Require Import Base Str AmountModel AmountSpec AmountProofs LettersSpec LettersProofs InvoiceModel InvoiceSpec InvoiceProofs ReadSpec.
Local Open Scope N_scope.

(** ** Characters *)

Lemma hex_cases : forallb (fun c => match hex_value c with
    | Some v => (match nth_error (lit "0123456789ABCDEF") (N.to_nat v) with Some c' => is_char c c' | None => false end) ||
                (match nth_error (lit "0123456789abcdef") (N.to_nat v) with Some c' => is_char c c' | None => false end)
    | None => true end) all_ascii = true.
Proof. vm_compute. reflexivity. Qed.

Lemma hexval_iff c v : hex_value c = Some v <-> hexval c v.
Proof.
  split.
  - intros E. pose proof (ascii_cases _ hex_cases c) as T. cbn beta in T. rewrite E in T.
    apply Bool.orb_true_iff in T as [T|T]; [left|right]; destruct (nth_error _ _) as [c'|]; try discriminate; apply is_char_eq in T; congruence.
  - unfold hexval. rewrite <- (N2Nat.id v) at 3. generalize (N.to_nat v). intros n T.
    do 16 (destruct n as [|n]; [destruct T as [T|T]; injection T as <-; vm_compute; reflexivity|]).
    destruct T as [T|T]; cbn in T; destruct n; discriminate T.
Qed.

Lemma hex_none c : hex_value c = None <-> forall v, ~ hexval c v.
Proof.
  destruct (hex_value c) as [v|] eqn:E.
  - split; [discriminate|]. intros F. destruct (F v). apply hexval_iff, E.
  - split; [|auto]. intros _ v Hv. apply hexval_iff in Hv. congruence.
Qed.

Definition letters_ok (ok : ascii -> bool) (L : str) : Prop := forall c, ok c = true <-> In c L.
Lemma letters_from ok L : forallb (fun c => Bool.eqb (ok c) (existsb (is_char c) L)) all_ascii = true -> letters_ok ok L.
Proof.
  intros T c. pose proof (ascii_cases _ T c) as E. apply Bool.eqb_prop in E. rewrite E, existsb_exists. split.
  - intros (x & Hx & Ex). apply is_char_eq in Ex. subst x. exact Hx.
  - intros Hc. exists c. split; [exact Hc|apply is_char_refl].
Qed.
Lemma path_ok : letters_ok is_path_char path_letters.
Proof. apply letters_from. vm_compute. reflexivity. Qed.
Lemma query_ok : letters_ok is_query_char query_letters.
Proof. apply letters_from. vm_compute. reflexivity. Qed.

Lemma path_no_pct : ~ In "%"%char path_letters.
Proof. rewrite <- (path_ok "%"%char). vm_compute. discriminate. Qed.
Lemma query_no_pct : ~ In "%"%char query_letters.
Proof. rewrite <- (query_ok "%"%char). vm_compute. discriminate. Qed.

Lemma escaped_iff ok L s : letters_ok ok L -> ~ In "%"%char L -> (uri_chars_ok ok s = true <-> escaped L s).
Proof.
  intros HL Np. split.
  - remember (length s) as n eqn:En. revert s En. induction n as [n IH] using lt_wf_ind. intros s En E.
    destruct s as [|c s]; [constructor|]. cbn [uri_chars_ok] in E. destruct (is_char c "%"%char) eqn:Ec.
    + apply is_char_eq in Ec. subst c. destruct s as [|h [|l r]]; try discriminate.
      destruct (hex_value h) as [a|] eqn:Eh; [|discriminate]. destruct (hex_value l) as [b|] eqn:El; [|discriminate].
      apply (es_pct L h l a b); [apply hexval_iff, Eh|apply hexval_iff, El|]. eapply IH; [|reflexivity|exact E]. subst n. cbn. lia.
    + apply Bool.andb_true_iff in E as [E1 E2]. constructor; [apply HL, E1|]. eapply IH; [|reflexivity|exact E2]. subst n. cbn. lia.
  - induction 1 as [|c s Hc Hs IH|h l a b s Hh Hl Hs IH]; [reflexivity| |].
    + cbn [uri_chars_ok]. destruct (is_char c "%"%char) eqn:Ec; [apply is_char_eq in Ec; subst c; contradiction|].
      apply HL in Hc. rewrite Hc, IH. reflexivity.
    + cbn [uri_chars_ok]. rewrite is_char_refl. apply hexval_iff in Hh, Hl. rewrite Hh, Hl. exact IH.
Qed.

Definition plain_sep (c : ascii) : Prop := c <> "%"%char /\ hex_value c = None.

Lemma escaped_app L a b : escaped L a -> escaped L b -> escaped L (a ++ b).
Proof. intros Ha Hb. induction Ha; cbn [app]; [exact Hb|constructor; assumption|econstructor; eassumption]. Qed.

Lemma escaped_sep L c : plain_sep c -> forall a b, escaped L (a ++ c :: b) -> escaped L a /\ In c L /\ escaped L b.
Proof.
  intros [Np Nh] a. remember (length a) as n eqn:En. revert a En. induction n as [n IH] using lt_wf_ind. intros a En b E.
  destruct a as [|x a].
  - cbn in E. inversion E; subst; [split; [constructor|auto]|congruence].
  - cbn [app] in E. inversion E as [|? ? Hx Hs|h l va vb s Hh Hl Hs]; subst.
    + destruct (IH (length a)) with (a := a) (b := b) as (Ha & Hc & Hb); [cbn; lia|reflexivity|assumption|].
      split; [constructor; assumption|auto].
    + assert (E0 : a ++ c :: b = h :: l :: s) by congruence. destruct a as [|h' a].
      * cbn in E0. assert (c = h) by congruence. subst c. apply hexval_iff in Hh. congruence.
      * cbn [app] in E0. destruct a as [|l' a].
        -- cbn in E0. assert (c = l) by congruence. subst c. apply hexval_iff in Hl. congruence.
        -- cbn [app] in E0. assert (h' = h) by congruence. assert (l' = l) by congruence. assert (Es : s = a ++ c :: b) by congruence.
           subst h' l'. rewrite Es in Hs. destruct (IH (length a)) with (a := a) (b := b) as (Ha & Hc & Hb); [cbn; lia|reflexivity|exact Hs|].
           split; [econstructor; eassumption|auto].
Qed.

Lemma escaped_lit L s : (forall c, In c s -> In c L) -> escaped L s.
Proof. induction s as [|c s IH]; intros F; [constructor|]. constructor; [apply F; left; reflexivity|apply IH; intros x Hx; apply F; right; exact Hx]. Qed.

(** Decoding *)
Lemma decode_iff L s t : ~ In "%"%char L -> escaped L s -> (pct_decode s = t <-> decodes s t).
Proof.
  intros Np E. revert t. induction E as [|c s Hc Hs IH|h l a b s Hh Hl Hs IH]; intros t.
  - cbn. split; [intros <-; constructor|]. intros D. inversion D. reflexivity.
  - cbn [pct_decode]. destruct (is_char c "%"%char) eqn:Ec; [apply is_char_eq in Ec; subst c; contradiction|]. apply is_char_false in Ec.
    split.
    + intros <-. constructor; [exact Ec|]. apply IH. reflexivity.
    + intros D. inversion D; subst; [|congruence]. f_equal. apply IH. assumption.
  - cbn [pct_decode]. rewrite is_char_refl. pose proof Hh as Hh'. pose proof Hl as Hl'. apply hexval_iff in Hh', Hl'. rewrite Hh', Hl'. split.
    + intros <-. econstructor; [exact Hh|exact Hl|]. apply IH. reflexivity.
    + intros D. inversion D as [|? ? ? Nc|? ? a' b' ? ? Ha Hb Ht]; subst; [congruence|].
      apply hexval_iff in Ha, Hb. assert (a' = a) by congruence. assert (b' = b) by congruence. subst. f_equal. apply IH. exact Ht.
Qed.

(** ** Splitting *)
Lemma split_all_ne c s : split_all c s <> [].
Proof. destruct s as [|x s]; cbn; [discriminate|]. destruct (is_char x c); [discriminate|]. destruct (split_all c s); discriminate. Qed.

Lemma split_all_parted c s : parted c s (split_all c s).
Proof.
  split; [apply split_all_ne|]. induction s as [|x s [IH1 IH2]]; cbn [split_all].
  - split; [reflexivity|]. intros p [<-|[]]. auto.
  - destruct (is_char x c) eqn:E.
    + apply is_char_eq in E. subst x. destruct (split_all c s) as [|p ps] eqn:Es; [destruct (split_all_ne c s Es)|]. split.
      * change (join [c] ([] :: p :: ps)) with (c :: join [c] (p :: ps)). f_equal. exact IH1.
      * intros q [<-|Hq]; [auto|]. apply IH2, Hq.
    + apply is_char_false in E. destruct (split_all c s) as [|p ps] eqn:Es; [destruct (split_all_ne c s Es)|]. split.
      * destruct ps as [|p' ps]; [cbn in *; congruence|].
        change (join [c] ((x :: p) :: p' :: ps)) with (x :: join [c] (p :: p' :: ps)). f_equal. exact IH1.
      * intros q [<-|Hq]; [|apply IH2; right; exact Hq]. intros [X|X]; [congruence|]. apply (IH2 p); [left; reflexivity|exact X].
Qed.

Lemma parted_iff c s parts : split_all c s = parts <-> parted c s parts.
Proof.
  split; [intros <-; apply split_all_parted|]. intros (Ne & -> & Nc). apply split_all_join; [exact Ne|]. apply Forall_forall. exact Nc.
Qed.

Lemma parted_escaped L c s parts : plain_sep c -> parted c s parts -> escaped L s -> forall p, In p parts -> escaped L p.
Proof.
  intros Pc (Ne & -> & _) E p. induction parts as [|a parts IH]; [intros []|]. destruct parts as [|b parts].
  - intros [<-|[]]. exact E.
  - change (join [c] (a :: b :: parts)) with (a ++ c :: join [c] (b :: parts)) in E.
    apply escaped_sep in E as (Ea & _ & Er); [|exact Pc]. intros [<-|Hp]; [exact Ea|]. apply IH; [discriminate|exact Er|exact Hp].
Qed.

Lemma sep_amp : plain_sep "&"%char. Proof. split; [discriminate|reflexivity]. Qed.
Lemma sep_eq : plain_sep "="%char. Proof. split; [discriminate|reflexivity]. Qed.
Lemma sep_slash : plain_sep "/"%char. Proof. split; [discriminate|reflexivity]. Qed.
Lemma sep_colon : plain_sep ":"%char. Proof. split; [discriminate|reflexivity]. Qed.

(** ** Parameters *)
Definition query_step (C : Codecs) (m : list (str * str)) (p : str) : result InvoiceParseError (list (str * str)) :=
  match split_once "="%char p with
  | Some (k, v) => let! k := percent_decode C k in let! v := percent_decode C v in Ok (imap_insert k v m)
  | None => Err EInvalidQueryParam
  end.

Lemma percent_decode_iff C s t : escaped query_letters s -> (percent_decode C s = Ok t <-> decodes s t /\ utf8 C t = true).
Proof.
  intros E. unfold percent_decode. split.
  - destruct (utf8 C (pct_decode s)) eqn:U; [|discriminate]. intros X. apply Ok_inj in X. subst t. split; [|exact U].
    apply (decode_iff query_letters); [exact query_no_pct|exact E|reflexivity].
  - intros (D & U). apply (decode_iff query_letters s t query_no_pct E) in D. rewrite D, U. reflexivity.
Qed.

Lemma query_step_iff C m p m' : escaped query_letters p ->
  (query_step C m p = Ok m' <-> exists kv, param C p kv /\ m' = imap_insert (fst kv) (snd kv) m).
Proof.
  intros E. unfold query_step. split.
  - destruct (split_once "="%char p) as [[k v]|] eqn:Es; [|discriminate]. apply split_once_Some in Es as (-> & Nk).
    apply escaped_sep in E as (Ek & _ & Ev); [|exact sep_eq].
    destruct (percent_decode C k) as [k'| |] eqn:Dk; cbn [rbind]; try discriminate.
    destruct (percent_decode C v) as [v'| |] eqn:Dv; cbn [rbind]; try discriminate. intros X. apply Ok_inj in X. subst m'.
    apply percent_decode_iff in Dk as (Dk & Uk); [|exact Ek]. apply percent_decode_iff in Dv as (Dv & Uv); [|exact Ev].
    exists (k', v'). split; [constructor; assumption|reflexivity].
  - intros (kv & Pa & ->). destruct Pa as [k v k' v' Nk Dk Dv Uk Uv]. rewrite split_once_app by exact Nk.
    apply escaped_sep in E as (Ek & _ & Ev); [|exact sep_eq].
    assert (Xk : percent_decode C k = Ok k') by (apply percent_decode_iff; auto).
    assert (Xv : percent_decode C v = Ok v') by (apply percent_decode_iff; auto). rewrite Xk. cbn [rbind]. rewrite Xv. reflexivity.
Qed.

Lemma query_fold C parts : (forall p, In p parts -> escaped query_letters p) -> forall m m',
  (rfold (query_step C) m parts = Ok m' <-> exists ps, Forall2 (param C) parts ps /\ m' = imap_extend m ps).
Proof.
  induction parts as [|p parts IH]; intros F m m'.
  - cbn. split.
    + intros X. apply Ok_inj in X. subst m'. exists []. split; [constructor|reflexivity].
    + intros (ps & Fa & ->). inversion Fa. reflexivity.
  - cbn [rfold]. split.
    + destruct (query_step C m p) as [m1| |] eqn:E1; cbn [rbind]; try discriminate. intros E2.
      apply query_step_iff in E1 as (kv & Pa & ->); [|apply F; left; reflexivity].
      apply IH in E2 as (ps & Fa & ->); [|intros q Hq; apply F; right; exact Hq].
      exists (kv :: ps). split; [constructor; assumption|reflexivity].
    + intros (ps & Fa & ->). inversion Fa as [|? kv ? ps' Pa Fa']; subst.
      assert (E1 : query_step C m p = Ok (imap_insert (fst kv) (snd kv) m)).
      { apply query_step_iff; [apply F; left; reflexivity|]. eauto. }
      rewrite E1. cbn [rbind]. apply IH; [intros q Hq; apply F; right; exact Hq|]. exists ps'. split; [exact Fa'|reflexivity].
Qed.

Lemma params_iff C q m : (forall t, q = Some t -> escaped query_letters t) ->
  (map_query_params C q = Ok m <-> exists ps, params C q ps /\ m = imap_extend [] ps).
Proof.
  intros E. destruct q as [q|]; cbn [map_query_params params].
  - change (rfold (query_step C) [] (split_all "&"%char q) = Ok m <-> exists ps, (exists parts, parted "&"%char q parts /\ Forall2 (param C) parts ps) /\ m = imap_extend [] ps).
    pose proof (split_all_parted "&"%char q) as Pq. split.
    + intros X. apply query_fold in X as (ps & Fa & ->); [|apply (parted_escaped _ "&"%char q _ sep_amp Pq (E q eq_refl))].
      exists ps. split; [eauto|reflexivity].
    + intros (ps & (parts & Pp & Fa) & ->). pose proof Pp as Ep. apply parted_iff in Ep. subst parts.
      apply query_fold; [apply (parted_escaped _ "&"%char q _ sep_amp Pp (E q eq_refl))|]. eauto.
  - split.
    + intros X. apply Ok_inj in X. subst m. exists []. split; reflexivity.
    + intros (ps & -> & ->). reflexivity.
Qed.

(** ** The map of parameters *)
Lemma insert_keys k v m : map fst (imap_insert k v m) = if existsb (streqb k) (map fst m) then map fst m else map fst m ++ [k].
Proof.
  induction m as [|[k' v'] m IH]; [reflexivity|]. cbn [imap_insert map existsb fst]. destruct (streqb k k') eqn:E; cbn [orb map fst]; [reflexivity|].
  rewrite IH. destruct (existsb (streqb k) (map fst m)); reflexivity.
Qed.
Lemma keyb k (m : list (str * str)) : existsb (streqb k) (map fst m) = true <-> In k (map fst m).
Proof.
  rewrite existsb_exists. split.
  - intros (x & Hx & E). apply streqb_eq in E. subst x. exact Hx.
  - intros Hk. exists k. split; [exact Hk|apply streqb_refl].
Qed.
Lemma insert_nodup k v m : NoDup (map fst m) -> NoDup (map fst (imap_insert k v m)).
Proof.
  intros Nd. rewrite insert_keys. destruct (existsb (streqb k) (map fst m)) eqn:E; [exact Nd|].
  assert (Nk : ~ In k (map fst m)) by (intros X; apply keyb in X; congruence).
  clear E. induction (map fst m) as [|x l IH]; cbn [app]; [repeat constructor; auto|]. inversion Nd as [|? ? Hx Hl]; subst.
  constructor.
  - intros X. apply in_app_or in X as [X|[X|[]]]; [contradiction|]. subst x. apply Nk. left. reflexivity.
  - apply IH; [exact Hl|]. intros X. apply Nk. right. exact X.
Qed.
Lemma insert_In k v m k' v' : NoDup (map fst m) ->
  (In (k', v') (imap_insert k v m) <-> (k' = k /\ v' = v) \/ (k' <> k /\ In (k', v') m)).
Proof.
  induction m as [|[k0 v0] m IH]; intros Nd; cbn [imap_insert].
  - split; [intros [X|[]]; injection X as <- <-; auto|]. intros [[-> ->]|[_ []]]. left. reflexivity.
  - inversion Nd as [|? ? Hx Hl]; subst. cbn [fst] in Hx. destruct (streqb k k0) eqn:E.
    + apply streqb_eq in E. subst k0. split.
      * intros [X|X]; [injection X as <- <-; auto|]. right. split; [|right; exact X]. intros ->. apply Hx. apply (in_map fst) in X. exact X.
      * intros [[-> ->]|[Nk [X|X]]]; [left; reflexivity| |right; exact X]. injection X as <- <-. congruence.
    + assert (Nk0 : k <> k0) by (intros ->; rewrite streqb_refl in E; discriminate). split.
      * intros [X|X]; [injection X as <- <-; right; split; [congruence|left; reflexivity]|].
        apply IH in X as [X|[X1 X2]]; [left; exact X| |exact Hl]. right. split; [exact X1|right; exact X2].
      * intros [[-> ->]|[Nk [X|X]]].
        -- right. apply IH; auto.
        -- left. exact X.
        -- right. apply IH; auto.
Qed.

Lemma last_snoc k v ps k' v' : last_value k' (ps ++ [(k, v)]) v' <-> (k' = k /\ v' = v) \/ (k' <> k /\ last_value k' ps v').
Proof.
  split.
  - intros (l1 & l2 & E & Nk). destruct (exists_last (l := (k', v') :: l2)) as (l3 & x & E3); [discriminate|].
    destruct l2 as [|y l2].
    + apply app_inj_tail in E as (-> & X). injection X as <- <-. auto.
    + destruct (exists_last (l := y :: l2)) as (l4 & z & E4); [discriminate|]. rewrite E4 in *.
      replace (l1 ++ (k', v') :: l4 ++ [z]) with ((l1 ++ (k', v') :: l4) ++ [z]) in E by (rewrite <- app_assoc; reflexivity).
      apply app_inj_tail in E as (-> & <-). rewrite map_app in Nk. right. split.
      * intros ->. apply Nk. apply in_or_app. right. left. reflexivity.
      * exists l1, l4. split; [reflexivity|]. intros X. apply Nk. apply in_or_app. auto.
  - intros [[-> ->]|[Nk (l1 & l2 & -> & N2)]].
    + exists ps, []. split; [reflexivity|]. auto.
    + exists l1, (l2 ++ [(k, v)]). split; [rewrite <- app_assoc; reflexivity|]. rewrite map_app. intros X.
      apply in_app_or in X as [X|[X|[]]]; [contradiction|]. cbn in X. congruence.
Qed.

Lemma last_key k ps : In k (map fst ps) <-> exists v, last_value k ps v.
Proof.
  split.
  - induction ps as [|[k0 v0] ps IH] using rev_ind; [intros []|]. rewrite map_app. intros X.
    destruct (list_eq_dec ascii_dec k k0) as [->|Ne].
    + exists v0. apply last_snoc. auto.
    + apply in_app_or in X as [X|[X|[]]]; [|cbn in X; congruence]. destruct (IH X) as (v & Hv). exists v. apply last_snoc. auto.
  - intros (v & l1 & l2 & -> & _). rewrite map_app. apply in_or_app. right. left. reflexivity.
Qed.

Definition ordered (ps : list (str * str)) (ks : list str) : Prop :=
  forall a b c k k', ks = a ++ k :: b ++ k' :: c -> exists p w q, ps = p ++ (k, w) :: q /\ ~ In k' (map fst p).

Lemma extend_spec ps : let m := imap_extend [] ps in
  NoDup (map fst m) /\ (forall k v, In (k, v) m <-> last_value k ps v) /\ ordered ps (map fst m).
Proof.
  induction ps as [|[k0 v0] ps IH] using rev_ind.
  - cbn. split; [constructor|]. split.
    + intros k v. split; [intros []|]. intros (l1 & l2 & E & _). destruct l1; discriminate.
    + intros a b c k k' E. destruct a; discriminate.
  - cbv zeta in *. destruct IH as (Nd & Al & Or).
    assert (Es : imap_extend [] (ps ++ [(k0, v0)]) = imap_insert k0 v0 (imap_extend [] ps)) by (unfold imap_extend; rewrite fold_left_app; reflexivity).
    rewrite Es. split; [apply insert_nodup, Nd|]. split.
    + intros k v. rewrite insert_In by exact Nd. rewrite last_snoc, Al. reflexivity.
    + assert (Or' : ordered (ps ++ [(k0, v0)]) (map fst (imap_extend [] ps))).
      { intros a b c k k' E. destruct (Or a b c k k' E) as (p & w & q & -> & Np). exists p, w, (q ++ [(k0, v0)]). split; [rewrite <- app_assoc; reflexivity|exact Np]. }
      rewrite insert_keys. destruct (existsb (streqb k0) _) eqn:Ek; [exact Or'|].
      intros a b c k k' E. destruct c as [|y c].
      * replace (a ++ k :: b ++ [k']) with ((a ++ k :: b) ++ [k']) in E by (rewrite <- app_assoc; reflexivity).
        apply app_inj_tail in E as (E & <-).
        assert (Hk : In k (map fst (imap_extend [] ps))) by (rewrite E; apply in_or_app; right; left; reflexivity).
        assert (Nk0 : ~ In k0 (map fst ps)).
        { intros X. apply last_key in X as (v & X). apply Al, (in_map fst), keyb in X. cbn [fst] in X. congruence. }
        apply in_map_iff in Hk as ([k1 v1] & X & Hk). cbn in X. subst k1. apply Al in Hk as (l1 & l2 & -> & _).
        exists l1, v1, (l2 ++ [(k0, v0)]). split; [rewrite <- app_assoc; reflexivity|]. intros X. apply Nk0. rewrite map_app. apply in_or_app. auto.
      * destruct (exists_last (l := y :: c)) as (c' & z & Ec); [discriminate|]. rewrite Ec in E.
        replace (a ++ k :: b ++ k' :: c' ++ [z]) with ((a ++ k :: b ++ k' :: c') ++ [z]) in E by (rewrite <- app_assoc; cbn; rewrite <- app_assoc; reflexivity).
        apply app_inj_tail in E as (E & _). exact (Or' a b c' k k' E).
Qed.

Definition without (k : str) (m : list (str * str)) : list (str * str) := filter (fun p => negb (streqb k (fst p))) m.

Lemma without_id k m : ~ In k (map fst m) -> without k m = m.
Proof.
  induction m as [|[k' v'] m IH]; intros Nk; [reflexivity|]. unfold without. cbn [filter fst]. destruct (streqb k k') eqn:E.
  - apply streqb_eq in E. subst k'. destruct Nk. left. reflexivity.
  - cbn [negb]. f_equal. apply IH. intros X. apply Nk. right. exact X.
Qed.

Lemma remove_spec k m : NoDup (map fst m) ->
  snd (imap_remove k m) = without k m /\ forall v, fst (imap_remove k m) = Some v <-> In (k, v) m.
Proof.
  induction m as [|[k' v'] m IH]; intros Nd.
  - cbn. split; [reflexivity|]. intros v. split; [discriminate|intros []].
  - inversion Nd as [|? ? Hx Hl]; subst. cbn [fst] in Hx. cbn [imap_remove]. unfold without. cbn [filter fst].
    destruct (streqb k k') eqn:E.
    + apply streqb_eq in E. subst k'. cbn [negb]. split; [symmetry; apply without_id, Hx|]. intros v. cbn [fst]. split.
      * intros X. injection X as <-. left. reflexivity.
      * intros [X|X]; [injection X as ->; reflexivity|]. apply (in_map fst) in X. contradiction.
    + destruct (IH Hl) as (IH1 & IH2). destruct (imap_remove k m) as [r m']. cbn [fst snd negb] in *. split; [f_equal; exact IH1|].
      intros v. rewrite IH2. split; [intros X; right; exact X|]. intros [X|X]; [|exact X]. injection X as <- <-. rewrite streqb_refl in E. discriminate.
Qed.

Lemma without_In k m k' v : In (k', v) (without k m) <-> k' <> k /\ In (k', v) m.
Proof.
  unfold without. rewrite filter_In. cbn [fst]. split.
  - intros (X & E). split; [|exact X]. intros ->. rewrite streqb_refl in E. discriminate.
  - intros (Ne & X). split; [exact X|]. destruct (streqb k k') eqn:E; [|reflexivity]. apply streqb_eq in E. congruence.
Qed.
Lemma without_nodup k m : NoDup (map fst m) -> NoDup (map fst (without k m)).
Proof.
  induction m as [|[k' v'] m IH]; intros Nd; [constructor|]. inversion Nd as [|? ? Hx Hl]; subst. unfold without. cbn [filter fst].
  destruct (negb (streqb k k')); [|apply IH, Hl]. cbn [map fst]. constructor; [|apply IH, Hl]. intros X. apply Hx.
  apply in_map_iff in X as ([a b] & E & X). apply filter_In in X as (X & _). cbn in E. subst a. apply (in_map fst) in X. exact X.
Qed.

Lemma filter_split {A} (f : A -> bool) l a x b : filter f l = a ++ x :: b ->
  exists a' b', l = a' ++ x :: b' /\ filter f a' = a /\ filter f b' = b.
Proof.
  revert a. induction l as [|y l IH]; intros a E; [destruct a; discriminate|]. cbn [filter] in E. destruct (f y) eqn:Ey.
  - destruct a as [|z a].
    + injection E as <- <-. exists [], l. auto.
    + injection E as <- E. destruct (IH a E) as (a' & b' & -> & Ea & Eb). exists (y :: a'), b'. split; [reflexivity|]. split; [|exact Eb].
      cbn [filter]. rewrite Ey. f_equal. exact Ea.
  - destruct (IH a E) as (a' & b' & -> & Ea & Eb). exists (y :: a'), b'. split; [reflexivity|]. split; [|exact Eb].
    cbn [filter]. rewrite Ey. exact Ea.
Qed.

Definition orders (ps uq : list (str * str)) : Prop := forall a b c k k' v v', uq = a ++ (k, v) :: b ++ (k', v') :: c ->
    exists p w q, ps = p ++ (k, w) :: q /\ ~ In k' (map fst p).

Lemma ordered_orders ps m : ordered ps (map fst m) -> orders ps m.
Proof.
  intros Or a b c k k' v v' ->. apply (Or (map fst a) (map fst b) (map fst c) k k'). rewrite map_app. cbn [map fst]. rewrite map_app. reflexivity.
Qed.
Lemma without_orders ps k m : orders ps m -> orders ps (without k m).
Proof.
  intros Or a b c k1 k2 v1 v2 E. apply filter_split in E as (a' & b' & -> & _ & E). apply filter_split in E as (b'' & c'' & -> & _ & _).
  exact (Or a' b'' c'' k1 k2 v1 v2 eq_refl).
Qed.

Lemma others_made ps : others ps (without (lit "expiry") (without (lit "endpoints") (imap_extend [] ps))).
Proof.
  destruct (extend_spec ps) as (Nd & Al & Or). constructor.
  - apply without_nodup, without_nodup, Nd.
  - intros k v. rewrite without_In, without_In, Al. tauto.
  - apply without_orders, without_orders, ordered_orders, Or.
Qed.

Lemma first_before (ps : list (str * str)) k k' p w q p' w' q' : k <> k' ->
  ps = p ++ (k, w) :: q -> ~ In k' (map fst p) -> ps = p' ++ (k', w') :: q' -> ~ In k (map fst p') -> False.
Proof.
  intros Ne E N1 E' N2. subst ps. revert p' E' N2. induction p as [|x p IH]; intros p' E' N2.
  - destruct p' as [|y p']; cbn in E'; [injection E' as X; congruence|]. injection E' as <- _. apply N2. left. reflexivity.
  - destruct p' as [|y p']; cbn in E'.
    + injection E' as -> _. apply N1. left. reflexivity.
    + injection E' as <- E'. apply (IH (fun X => N1 (or_intror X)) p' E'). intros X. apply N2. right. exact X.
Qed.

Lemma others_unique_gen ps u : forall u', NoDup (map fst u) -> NoDup (map fst u') -> (forall k v, In (k, v) u <-> In (k, v) u') ->
  orders ps u -> orders ps u' -> u = u'.
Proof.
  induction u as [|[k v] u IH]; intros u' Nd Nd' Al Or Or'.
  - destruct u' as [|[k' v'] u']; [reflexivity|]. destruct (proj2 (Al k' v') (or_introl eq_refl)).
  - destruct u' as [|[k' v'] u']; [destruct (proj1 (Al k v) (or_introl eq_refl))|].
    inversion Nd as [|? ? Hx Hl]; subst. inversion Nd' as [|? ? Hx' Hl']; subst. cbn [fst] in *.
    assert (Ek : k = k').
    { destruct (list_eq_dec ascii_dec k k') as [E|Ne]; [exact E|]. exfalso.
      destruct (proj1 (Al k v) (or_introl eq_refl)) as [X|X]; [injection X as X _; congruence|].
      destruct (proj2 (Al k' v') (or_introl eq_refl)) as [Y|Y]; [injection Y as Y _; congruence|].
      apply in_split in X as (b1 & c1 & ->). apply in_split in Y as (b2 & c2 & ->).
      destruct (Or [] b2 c2 k k' v v' eq_refl) as (p & w & q & E1 & N1).
      destruct (Or' [] b1 c1 k' k v' v eq_refl) as (p' & w' & q' & E2 & N2).
      exact (first_before ps k k' p w q p' w' q' Ne E1 N1 E2 N2). }
    subst k'. assert (v' = v).
    { destruct (proj1 (Al k v) (or_introl eq_refl)) as [X|X]; [congruence|]. apply (in_map fst) in X. contradiction. }
    subst v'. f_equal. apply IH; try assumption.
    + intros k1 v1. split; intros X.
      * destruct (proj1 (Al k1 v1) (or_intror X)) as [Y|Y]; [|exact Y]. injection Y as <- <-. apply (in_map fst) in X. contradiction.
      * destruct (proj2 (Al k1 v1) (or_intror X)) as [Y|Y]; [|exact Y]. injection Y as <- <-. apply (in_map fst) in X. contradiction.
    + intros a b c k1 k2 v1 v2 E. apply (Or ((k, v) :: a) b c k1 k2 v1 v2). rewrite E. reflexivity.
    + intros a b c k1 k2 v1 v2 E. apply (Or' ((k, v) :: a) b c k1 k2 v1 v2). rewrite E. reflexivity.
Qed.

Lemma others_unique ps u u' : others ps u -> others ps u' -> u = u'.
Proof.
  intros [N1 A1 O1] [N2 A2 O2]. apply (others_unique_gen ps); try assumption. intros k v. rewrite A1, A2. reflexivity.
Qed.

Lemma others_iff ps uq : others ps uq <-> uq = without (lit "expiry") (without (lit "endpoints") (imap_extend [] ps)).
Proof. split; [intros O; exact (others_unique ps _ _ O (others_made ps))|intros ->; apply others_made]. Qed.

(** ** Values *)
Lemma transports_fold parts : forall acc ts,
  (rfold (fun l t => let! t := rmap_err (fun _ => EInvalidQueryParam) (transport_from_str t) in Ok (l ++ [t])) acc parts = Ok ts <->
   exists ts', denotes_all parts ts' /\ ts = acc ++ ts').
Proof.
  induction parts as [|p parts IH]; intros acc ts.
  - cbn. split.
    + intros X. apply Ok_inj in X. subst ts. exists []. split; [constructor|symmetry; apply app_nil_r].
    + intros (ts' & D & ->). inversion D. rewrite app_nil_r. reflexivity.
  - cbn [rfold]. split.
    + destruct (transport_from_str p) as [t| |] eqn:Et; cbn [rmap_err rbind]; try discriminate. intros X.
      apply IH in X as (ts' & D & ->). apply transport_parse in Et as (proto & host & Nh & -> & Hp).
      exists (t :: ts'). split; [econstructor; eassumption|]. rewrite <- app_assoc. reflexivity.
    + intros (ts' & D & ->). inversion D as [|proto host t ss ts0 Nh Hp D']; subst.
      match goal with |- context [transport_from_str ?q] =>
        assert (Et : transport_from_str q = Ok t) by (apply transport_parse; exists proto, host; split; [exact Nh|]; split; [reflexivity|exact Hp]) end.
      rewrite Et. cbn [rmap_err rbind]. apply IH. exists ts0. split; [exact D'|]. rewrite <- app_assoc. reflexivity.
Qed.

Lemma decimal_head c s n : decimal (c :: s) n -> c <> "-"%char /\ c <> "+"%char.
Proof.
  intros (_ & E). unfold dec_value in E. cbn [dec_value_from] in E. split; intros ->; discriminate E.
Qed.

Lemma signed_iff s z : i64_parse s = Some z <-> signed s z.
Proof.
  unfold signed, i64_parse. destruct s as [|c s].
  - split; [discriminate|]. intros (_ & ds & n & (Nd & _) & [([X|X] & _)|(X & _)]); congruence.
  - destruct (is_char c "-"%char) eqn:Ec.
    + apply is_char_eq in Ec. subst c. split.
      * destruct s as [|d s]; [discriminate|]. destruct (dec_value (d :: s)) as [n|] eqn:Ed; [|discriminate].
        destruct (n <=? 9223372036854775808) eqn:El; [|discriminate]. intros X. injection X as <-. apply N.leb_le in El.
        split; [lia|]. exists (d :: s), n. split; [split; [discriminate|exact Ed]|]. right. split; reflexivity.
      * intros (B & ds & n & D & [([E|E] & _)|(E & ->)]).
        -- subst ds. destruct (decimal_head _ _ _ D). congruence.
        -- discriminate.
        -- injection E as ->. destruct D as (Nd & D). destruct ds as [|d s']; [congruence|]. rewrite D.
           destruct (n <=? 9223372036854775808) eqn:El; [reflexivity|]. apply N.leb_gt in El. lia.
    + apply is_char_false in Ec. destruct (is_char c "+"%char) eqn:Ep.
      * apply is_char_eq in Ep. subst c. split.
        -- destruct s as [|d s]; [discriminate|]. destruct (dec_value (d :: s)) as [n|] eqn:Ed; [|discriminate].
           destruct (n <=? 9223372036854775807) eqn:El; [|discriminate]. intros X. injection X as <-. apply N.leb_le in El.
           split; [lia|]. exists (d :: s), n. split; [split; [discriminate|exact Ed]|]. left. split; [right; reflexivity|reflexivity].
        -- intros (B & ds & n & D & [([E|E] & ->)|(E & _)]).
           ++ subst ds. destruct (decimal_head _ _ _ D). congruence.
           ++ injection E as ->. destruct D as (Nd & D). destruct ds as [|d s']; [congruence|]. rewrite D.
              destruct (n <=? 9223372036854775807) eqn:El; [reflexivity|]. apply N.leb_gt in El. lia.
           ++ injection E as E. congruence.
      * apply is_char_false in Ep. split.
        -- destruct (dec_value (c :: s)) as [n|] eqn:Ed; [|discriminate].
           destruct (n <=? 9223372036854775807) eqn:El; [|discriminate]. intros X. injection X as <-. apply N.leb_le in El.
           split; [lia|]. exists (c :: s), n. split; [split; [discriminate|exact Ed]|]. left. split; [left; reflexivity|reflexivity].
        -- intros (B & ds & n & D & [([E|E] & ->)|(E & _)]); [|congruence|congruence].
           subst ds. destruct D as (_ & D). rewrite D.
           destruct (n <=? 9223372036854775807) eqn:El; [reflexivity|]. apply N.leb_gt in El. lia.
Qed.

Lemma network_iff s n : chainnet_from_str s = Some n <-> reads_network s n.
Proof.
  rewrite chainnet_parse. unfold reads_network. split.
  - intros (m & -> & ->). destruct m; cbn; tauto.
  - intros X. cbn [In] in X.
    destruct X as [X|[X|[X|[X|[X|[X|[]]]]]]]; injection X as E <-; rewrite <- E;
      [exists BitcoinMainnet|exists BitcoinTestnet|exists BitcoinSignet|exists BitcoinRegtest|exists LiquidMainnet|exists LiquidTestnet]; split; reflexivity.
Qed.

Section Ben.
Context (C : Codecs) (HB : forall t l, baid_parse C t = Some l -> bytes 34 l).

Lemma payload_iff t data p : baid_parse C t = Some data -> (p2v_try_from C data = Ok p <-> payload_of C data p).
Proof.
  intros E. apply HB in E. destruct data as [|m [|t' r]].
  - destruct E as (E & _). vm_compute in E. discriminate.
  - destruct E as (E & _). vm_compute in E. discriminate.
  - rewrite (p2v_decode C m t' r p E). unfold payload_of. split.
    + intros X. exists m, t', r. split; [reflexivity|exact X].
    + intros (m0 & t0 & r0 & X & Y). injection X as <- <- <-. exact Y.
Qed.

Lemma beneficiary_iff s b : beneficiary_from_str C s = Ok b <-> reads_beneficiary C s b.
Proof.
  unfold beneficiary_from_str, reads_beneficiary. split.
  - destruct (split_once ":"%char s) as [[net text]|] eqn:Es; [|discriminate]. apply split_once_Some in Es as (-> & Nc).
    destruct (chainnet_from_str net) as [n|] eqn:En; cbn [ok_or rbind]; [|discriminate]. apply network_iff in En.
    destruct (seal_parse C text) as [x|] eqn:Ex.
    + intros X. apply Ok_inj in X. subst b. exists net, text. split; [reflexivity|]. split; [exact Nc|].
      destruct n; cbn; split; assumption.
    + destruct (baid_parse C text) as [data|] eqn:Ed; [|discriminate].
      destruct (p2v_try_from C data) as [p| |] eqn:Ep; cbn [rmap_err rbind]; try discriminate. intros X. apply Ok_inj in X. subst b.
      apply (payload_iff text data p Ed) in Ep. exists net, text. split; [reflexivity|]. split; [exact Nc|].
      destruct n; cbn; (split; [assumption|split; [exact Ex|exists data; split; assumption]]).
  - intros (net & text & -> & Nc & Hn & Hi). rewrite split_once_app by exact Nc. apply network_iff in Hn. rewrite Hn. cbn [ok_or rbind].
    destruct (xcn_into_inner b) as [x|p] eqn:Ei.
    + rewrite Hi. rewrite <- Ei. destruct b; reflexivity.
    + destruct Hi as (-> & data & Ed & Hp). rewrite Ed. apply (payload_iff text data p Ed) in Hp. rewrite Hp. cbn [rmap_err rbind]. rewrite <- Ei. destruct b; reflexivity.
Qed.

Lemma state_iff s st : state_from_str C s = Some st <-> reads_state C s st.
Proof.
  transitivity (match st with
    | ISVoid => s = []
    | ISAmount a => s <> [] /\ amount_from_str s = Ok a
    | ISData a => allocation_text s a
    | ISAttach id => s <> [] /\ (forall a, amount_from_str s <> Ok a) /\ (forall a, ~ allocation_text s a) /\ attach_parse C s = Some id
    end).
  2: { unfold reads_state. pose proof (amount_from_str_iff s) as Ai. destruct st as [|a|v|id]; [tauto|specialize (Ai a); tauto|tauto|].
       assert (Aj : (forall a, amount_from_str s <> Ok a) <-> (forall a, ~ reads_amount s a))
         by (split; intros X a Y; apply Ai in Y; exact (X a Y)).
       tauto. }
  unfold state_from_str. destruct s as [|c s].
  - split; [intros X; injection X as <-; reflexivity|]. destruct st; [reflexivity| | |]; intros X; [destruct X; congruence| |destruct X; congruence].
    destruct X as (F & I & E & _). destruct F; discriminate.
  - set (t := c :: s). assert (Nt : t <> []) by discriminate.
    assert (Da : forall a v, amount_from_str t = Ok a -> allocation_text t v -> False).
    { intros a v E (F & I & E' & _). apply amount_from_str_sound in E as (_ & Fa & _). rewrite E' in Fa. apply Forall_app in Fa as (_ & Fa).
      inversion Fa as [|? ? X]; subst. vm_compute in X. intuition discriminate. }
    assert (Al : forall v, allocation_from_str t = Ok v <-> allocation_text t v) by (intros v; apply allocation_parse).
    destruct (amount_from_str t) as [a|e|] eqn:Ea.
    + split; [intros X; injection X as <-; auto|]. destruct st; intros X.
      * congruence.
      * destruct X as (_ & X). apply Ok_inj in X. congruence.
      * destruct (Da a _ eq_refl X).
      * destruct X as (_ & X & _). destruct (X a eq_refl).
    + destruct (allocation_from_str t) as [v| |] eqn:Ev.
      * split; [intros X; injection X as <-; apply Al; reflexivity|]. destruct st; intros X.
        -- congruence.
        -- destruct X; congruence.
        -- apply Al in X. apply Ok_inj in X. congruence.
        -- destruct X as (_ & _ & X & _). destruct (X v). apply Al. reflexivity.
      * destruct (attach_parse C t) as [id|] eqn:Et.
        -- split.
           ++ intros X. injection X as <-. split; [exact Nt|]. split; [discriminate|]. split; [|reflexivity]. intros v X. apply Al in X. discriminate.
           ++ destruct st; intros X; [congruence|destruct X; congruence|apply Al in X; discriminate|destruct X as (_ & _ & _ & X); congruence].
        -- split; [discriminate|]. destruct st; intros X; [congruence|destruct X; congruence|apply Al in X; discriminate|destruct X as (_ & _ & _ & X); congruence].
      * destruct (attach_parse C t) as [id|] eqn:Et.
        -- split.
           ++ intros X. injection X as <-. split; [exact Nt|]. split; [discriminate|]. split; [|reflexivity]. intros v X. apply Al in X. discriminate.
           ++ destruct st; intros X; [congruence|destruct X; congruence|apply Al in X; discriminate|destruct X as (_ & _ & _ & X); congruence].
        -- split; [discriminate|]. destruct st; intros X; [congruence|destruct X; congruence|apply Al in X; discriminate|destruct X as (_ & _ & _ & X); congruence].
    + destruct (allocation_from_str t) as [v| |] eqn:Ev.
      * split; [intros X; injection X as <-; apply Al; reflexivity|]. destruct st; intros X.
        -- congruence.
        -- destruct X; congruence.
        -- apply Al in X. apply Ok_inj in X. congruence.
        -- destruct X as (_ & _ & X & _). destruct (X v). apply Al. reflexivity.
      * destruct (attach_parse C t) as [id|] eqn:Et.
        -- split.
           ++ intros X. injection X as <-. split; [exact Nt|]. split; [discriminate|]. split; [|reflexivity]. intros v X. apply Al in X. discriminate.
           ++ destruct st; intros X; [congruence|destruct X; congruence|apply Al in X; discriminate|destruct X as (_ & _ & _ & X); congruence].
        -- split; [discriminate|]. destruct st; intros X; [congruence|destruct X; congruence|apply Al in X; discriminate|destruct X as (_ & _ & _ & X); congruence].
      * destruct (attach_parse C t) as [id|] eqn:Et.
        -- split.
           ++ intros X. injection X as <-. split; [exact Nt|]. split; [discriminate|]. split; [|reflexivity]. intros v X. apply Al in X. discriminate.
           ++ destruct st; intros X; [congruence|destruct X; congruence|apply Al in X; discriminate|destruct X as (_ & _ & _ & X); congruence].
        -- split; [discriminate|]. destruct st; intros X; [congruence|destruct X; congruence|apply Al in X; discriminate|destruct X as (_ & _ & _ & X); congruence].
Qed.

End Ben.
