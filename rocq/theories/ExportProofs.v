(** * When a contract can be exported: proofs for C63 *)
From Verif Require Import Base StM Core MergeModel MergeProofs ContainerModel ContainerSpec ContainerProofs.
From Verif Require Import PIndexModel PIndexSpec PIndexProofs StateModel StateSpec StateProofs StashModel StashSpec StashProofs StashAgain.
From Verif Require Import StockModel StockProofs StockAgain ConsignModel ConsignSpec ConsignProofs TransferProofs ExportSpec.
Local Open Scope N_scope.

(** ** Counting *)

Lemma at_most_list {A} n (P : A -> Prop) (l : list A) : NoDup l -> (forall x, In x l <-> P x) -> (at_most n P <-> len l <= n).
Proof.
  intros Nd Hl. split.
  - intros Am. apply Am; [exact Nd|]. intros x. apply Hl.
  - intros Le l' Nd' Hl'. etransitivity; [|exact Le]. unfold len.
    assert (length l' <= length l)%nat; [|lia]. apply NoDup_incl_length; [exact Nd'|]. intros x Hx. apply Hl, Hl', Hx.
Qed.
Lemma at_most_map {K V} `{OrdKey K} n (P : K -> Prop) (m : omap K V) : msorted m -> (forall x, mhas x m = true <-> P x) ->
  (at_most n P <-> len m <= n).
Proof.
  intros Sm Hm. replace (len m) with (len (mkeys m)) by (unfold len, mkeys; rewrite map_length; reflexivity).
  apply at_most_list; [apply msorted_NoDup, Sm|]. intros x. rewrite <- Hm, mhas_true. unfold mkeys. rewrite in_map_iff. split.
  - intros ([k v] & E & Hin). cbn in E. subst k. exists v. apply In_mget; assumption.
  - intros (v & E). exists (x, v). split; [reflexivity|apply mget_In, E].
Qed.

(** ** Witnesses *)

Lemma select_iff s ws w : ssorted ws ->
  (select_valid_witness s ws = Ok w <->
   In w ws /\ live s (Some w) /\ forall w', In w' ws -> cmp w' w = Lt -> mget w' (ms_witnesses s) = Some Archived).
Proof.
  unfold ssorted. induction ws as [|w0 ws IH]; intros So; cbn [select_valid_witness].
  - split; [discriminate|]. intros ([] & _).
  - apply StronglySorted_inv in So as [So Fa]. specialize (IH So). rewrite Forall_forall in Fa.
    unfold is_valid_witness. destruct (mget w0 (ms_witnesses s)) as [ord|] eqn:E0; cbn [ok_or rbind].
    + destruct (ord_valid ord) eqn:Ev.
      * split.
        -- intros E. apply Ok_inj in E. subst w. split; [left; reflexivity|]. split.
           ++ exists ord. split; [exact E0|]. intros ->. discriminate Ev.
           ++ intros w' [<-|Hi] Hlt; [rewrite cmp_refl in Hlt; discriminate|].
              specialize (Fa _ Hi). exfalso. pose proof (cmp_lt_trans _ _ _ Fa Hlt) as F. rewrite cmp_refl in F. discriminate.
        -- intros ([->|Hi] & _ & Ha); [reflexivity|]. specialize (Ha w0 (or_introl eq_refl) (Fa _ Hi)).
           rewrite E0 in Ha. apply Some_inj in Ha. subst ord. discriminate Ev.
      * rewrite IH. assert (Ea : ord = Archived) by (destruct ord; try discriminate Ev; reflexivity). subst ord. split.
        -- intros (Hi & L & Ha). split; [right; exact Hi|]. split; [exact L|]. intros w' [<-|Hi'] Hlt; auto.
        -- intros ([->|Hi] & L & Ha); [destruct L as (o & Eo & No); congruence|]. split; [exact Hi|]. split; [exact L|].
           intros w' Hi'. apply Ha. right. exact Hi'.
    + split; [discriminate|]. intros ([->|Hi] & L & Ha); [destruct L as (o & Eo & No); congruence|].
      specialize (Ha w0 (or_introl eq_refl) (Fa _ Hi)). congruence.
Qed.

Lemma chosen_iff s bid ws cid w : wf (sk_index s) -> bundle_info (sk_index s) bid = Ok (ws, cid) ->
  (select_valid_witness (sk_state s) ws = Ok w <-> chosen s bid w).
Proof.
  intros W Ei. apply bundle_info_spec in Ei as [E1 E2].
  rewrite select_iff by (apply (wf_wit _ W _ _ E1)). unfold chosen. cbn [states].
  assert (Hw : forall x, In x ws <-> exists ws', mget bid (mi_bundle_witness (sk_index s)) = Some ws' /\ In x ws').
  { intros x. split; [eauto|]. intros (ws' & E & Hx). rewrite E1 in E. apply Some_inj in E. subst ws'. exact Hx. }
  rewrite <- Hw. setoid_rewrite <- Hw. reflexivity.
Qed.

Lemma chosen_fun s bid w w' : chosen s bid w -> chosen s bid w' -> w = w'.
Proof.
  intros (F & (o & Eo & No) & A) (F' & (o' & Eo' & No') & A').
  destruct (cmp w w') eqn:Ec; [apply cmp_eq; exact Ec| |].
  - specialize (A' _ F Ec). congruence.
  - rewrite cmp_opp in Ec. destruct (cmp w' w) eqn:Ec'; try discriminate. specialize (A _ F' Ec'). congruence.
Qed.

Lemma client_chosen H K s bid cb : sound H s -> client_bundle K s bid = Ok cb ->
  exists w, chosen s bid w /\ anchored K s bid w (cb_anchor cb) (cb_bundle cb) /\ goes_to K s cb w /\
    dp_method (cb_dbc cb) = b_method (cb_bundle cb).
Proof.
  intros Sd E. destruct (client_bundle_ok _ _ _ _ E) as (ws & cid & w & Ei & Es & A & Em).
  exists w. split; [apply (chosen_iff s bid ws cid); [apply Sd|exact Ei|exact Es]|]. split; [exact A|]. split; [|exact Em].
  exists bid, ws, cid. auto.
Qed.

Lemma client_made H K s bid w a b : sound H s -> chosen s bid w -> anchored K s bid w a b ->
  exists cb, client_bundle K s bid = Ok cb.
Proof.
  intros Sd C (Eb & Fw & L & cid & sw & an & Fc & Ew & Ea & Ep & _). cbn [states] in Fw, Fc. destruct Fw as (ws & E1 & Hin).
  assert (Ei : bundle_info (sk_index s) bid = Ok (ws, cid)) by (apply bundle_info_spec; auto).
  pose proof (proj2 (chosen_iff s bid ws cid w (sd_index _ _ Sd) Ei) C) as Es.
  unfold client_bundle. rewrite Ei. cbn [of_index rmap_err rbind fst snd]. unfold of_stash at 1, stash_bundle. rewrite Eb. cbn [ok_or rmap_err rbind].
  rewrite Es. cbn [of_state rmap_err rbind]. unfold of_stash, stash_witness. rewrite Ew. cbn [ok_or rmap_err rbind].
  destruct (b_method b) eqn:Em, (sw_anchors sw) as [t|o|t o] eqn:Es'; cbn in Ea; try discriminate Ea; apply Some_inj in Ea; subst an;
    cbn [rbind fst snd]; rewrite Ep; cbn [ok_or rbind]; unfold client_bundle_new; rewrite Em; cbn [dp_method]; rewrite keqb_refl; eauto.
Qed.

(** ** Folding *)

Lemma rfold_ok {Er S A} (f : S -> A -> result Er S) (P : list A -> S -> Prop) l0 :
  (forall done s x, (exists post, l0 = done ++ x :: post) -> P done s -> exists s', f s x = Ok s' /\ P (done ++ [x]) s') ->
  forall l done s, l0 = done ++ l -> P done s -> exists s', rfold f s l = Ok s' /\ P l0 s'.
Proof.
  intros Hs. induction l as [|x l IH]; intros done s El Hp; cbn [rfold].
  - rewrite app_nil_r in El. subst done. eauto.
  - destruct (Hs done s x) as (s' & Es & Hp'); [eauto|exact Hp|]. rewrite Es. cbn [rbind].
    apply (IH (done ++ [x])); [rewrite <- app_assoc; exact El|exact Hp'].
Qed.

(** ** Where to start *)

Lemma rfold_find_iff (ci : list (OutSeal * oset Opout)) cid (l : list Outpoint) : forall acc : oset Opout,
  (exists r, rfold (fun opouts o =>
           let! p := ok_or (OutpointUnknown o cid) (find (fun p : OutSeal * oset Opout => keqb (os_outpoint (fst p)) o) ci) in
           Ok (fold_left (fun acc x => sinsert x acc) (snd p) opouts)) acc l = Ok r) <->
  (forall o, In o l -> exists p, In p ci /\ os_outpoint (fst p) = o).
Proof.
  induction l as [|o l IH]; intros acc; cbn [rfold].
  - split; [intros _ o []|eauto].
  - destruct (find _ ci) as [p|] eqn:Ef; cbn [ok_or rbind].
    + rewrite IH. apply find_some in Ef as [Hin Ek]. apply keqb_true in Ek. split.
      * intros Hl o' [<-|Ho]; [eauto|auto].
      * intros Hl o' Ho. apply Hl. right. exact Ho.
    + split; [intros (r & E); discriminate|]. intros Hl. destruct (Hl o (or_introl eq_refl)) as (p & Hin & Eo).
      pose proof (find_none _ _ Ef _ Hin) as Hf. cbn in Hf. rewrite Eo, keqb_refl in Hf. discriminate.
Qed.

Lemma start_iff H s cid outputs secret : sound H s ->
  ((exists outs, start_outs s cid outputs secret = Ok outs) <->
   mget cid (mi_contracts (sk_index s)) <> None /\
   forall o, In o outputs -> exists out oo, os_outpoint out = os_outpoint o /\ states (sk_index s) (FOut cid out oo)).
Proof.
  intros Sd. pose proof (sd_index _ _ Sd) as W. unfold start_outs, public_opouts, opouts_by_outputs.
  destruct (mget cid (mi_contracts (sk_index s))) as [ci|] eqn:Ec; cbn [ok_or rbind rmap rmap_err of_index].
  2: { split; [intros (o & E); discriminate|]. intros [[] _]. reflexivity. }
  destruct (wf_ci _ W _ _ Ec) as (_ & Hm & Hne).
  pose proof (rfold_find_iff (ci_outs ci) cid (map os_outpoint outputs) []) as Hf.
  match goal with |- context [rfold ?f [] ?l] => destruct (rfold f [] l) as [r|e|] eqn:Er end; cbn [rmap_err rbind].
  - split; [intros _|intros _; eexists; reflexivity]. split; [discriminate|]. intros o Ho.
    destruct (proj1 Hf (ex_intro _ r eq_refl) (os_outpoint o)) as ([out os] & Hin & Eo); [apply in_map, Ho|]. cbn [fst] in Eo.
    apply In_mget in Hin; [|exact Hm]. destruct (Hne _ _ Hin) as [_ Hnil]. destruct os as [|x os]; [congruence|].
    exists out, x. split; [exact Eo|]. exists ci, (x :: os). simpl; auto.
  - split; [intros (x & E); discriminate|]. intros [_ Ho]. exfalso. destruct (proj2 Hf) as (r & E'); [|discriminate].
    intros o Hin. apply in_map_iff in Hin as (o' & <- & Hin). destruct (Ho _ Hin) as (out & oo & Eo & ci' & os & E1 & E2 & _).
    rewrite Ec in E1. apply Some_inj in E1. subst ci'. exists (out, os). split; [apply mget_In, E2|exact Eo].
  - split; [intros (x & E); discriminate|]. intros [_ Ho]. exfalso. destruct (proj2 Hf) as (r & E'); [|discriminate].
    intros o Hin. apply in_map_iff in Hin as (o' & <- & Hin). destruct (Ho _ Hin) as (out & oo & Eo & ci' & os & E1 & E2 & _).
    rewrite Ec in E1. apply Some_inj in E1. subst ci'. exists (out, os). split; [apply mget_In, E2|exact Eo].
Qed.

(** ** Terminals *)

Lemma filter_two {A} (f : A -> bool) (l : list A) : forall i j a b, nth_error l i = Some a -> nth_error l j = Some b ->
  f a = true -> f b = true -> (length (filter f l) <= 1)%nat -> i = j.
Proof.
  assert (One : forall (l : list A) i a, nth_error l i = Some a -> f a = true -> (1 <= length (filter f l))%nat).
  { intros l' i a E Fa. assert (Hin : In a (filter f l')) by (apply filter_In; split; [apply (nth_error_In _ _ E)|exact Fa]).
    destruct (filter f l'); [destruct Hin|cbn; lia]. }
  induction l as [|x l IH]; intros [|i] [|j] a b Ea Eb Fa Fb Hl; cbn [nth_error] in *; try discriminate.
  - reflexivity.
  - apply Some_inj in Ea. subst x. cbn [filter] in Hl. rewrite Fa in Hl. cbn [length] in Hl.
    pose proof (One _ _ _ Eb Fb). lia.
  - apply Some_inj in Eb. subst x. cbn [filter] in Hl. rewrite Fb in Hl. cbn [length] in Hl.
    pose proof (One _ _ _ Ea Fa). lia.
  - f_equal. apply (IH i j a b); auto. cbn [filter] in Hl. destruct (f x); cbn [length] in Hl; lia.
Qed.

Lemma hits_once H x t ty no ty' no' : (length (hits H (Some x) t) <= 1)%nat -> msorted (op_assigns t) ->
  assigned_to H t ty no x -> assigned_to H t ty' no' x -> ty = ty' /\ no = no'.
Proof.
  intros Hl Sm (a & (ta & Hin & En) & Ea) (a' & (ta' & Hin' & En') & Ea'). unfold hits in Hl.
  apply conceal_seal_spec in Ea, Ea'. revert Hl Hin Hin'.
  assert (One : forall (l : omap N TypedAssigns) ty ta no a, In (ty, ta) l -> nth_error (ta_list ta) no = Some a -> x = conceal_seal H a ->
    (1 <= length (filter (N.eqb x) (map (conceal_seal H) (flat_map ta_list (mvals l)))))%nat).
  { intros l ty1 ta1 no1 a1 H1 H2 H3.
    assert (Hi : In x (filter (N.eqb x) (map (conceal_seal H) (flat_map ta_list (mvals l))))).
    { apply filter_In. split; [|apply N.eqb_refl]. rewrite H3. apply in_map, in_flat_map. exists ta1.
      split; [unfold mvals; apply in_map_iff; exists (ty1, ta1); auto|apply (nth_error_In _ _ H2)]. }
    destruct (filter _ _); [destruct Hi|cbn; lia]. }
  induction (op_assigns t) as [|[ty0 ta0] l IH]; [intros _ []|].
  unfold mvals. cbn [map flat_map snd]. rewrite map_app, filter_app, app_length. fold (mvals l).
  apply StronglySorted_inv in Sm as [Sm _].
  intros Hl [Hi|Hi] [Hi'|Hi'].
  - injection Hi as -> ->. injection Hi' as -> ->. split; [reflexivity|].
    apply (filter_two (N.eqb x) (map (conceal_seal H) (ta_list ta')) no no' x x); try apply N.eqb_refl; [| |lia].
    + rewrite nth_error_map, En. cbn. congruence.
    + rewrite nth_error_map, En'. cbn. congruence.
  - exfalso. injection Hi as -> ->. pose proof (One _ _ _ _ _ Hi' En' Ea').
    pose proof (One [(ty, ta)] ty ta no a (or_introl eq_refl) En Ea) as O2. cbn [mvals map snd flat_map] in O2. rewrite app_nil_r in O2. lia.
  - exfalso. injection Hi' as -> ->. pose proof (One _ _ _ _ _ Hi En Ea).
    pose proof (One [(ty', ta')] ty' ta' no' a' (or_introl eq_refl) En' Ea') as O2. cbn [mvals map snd flat_map] in O2. rewrite app_nil_r in O2. lia.
  - apply IH; auto. lia.
Qed.

Lemma rfold_no_err {Er S A} (f : S -> A -> result Er S) l e : (forall s x, In x l -> f s x <> Err e) -> forall s, rfold f s l <> Err e.
Proof.
  induction l as [|x l IH]; intros Hf s; cbn [rfold]; [discriminate|].
  destruct (f s x) as [s'|e'|] eqn:Ex; cbn [rbind]; [|intros E; injection E as ->; exact (Hf s x (or_introl eq_refl) Ex)|discriminate].
  apply IH. intros s0 y Hy. apply Hf. right. exact Hy.
Qed.

(** ** Collecting *)

Section Collect.
Context (H : Hashes) (K : Merkle) (s : Stock) (cid : N) (secret : option N).

Lemma start_step_no_err c o e : sound H s ->
  (oo_op o <> cid -> exists t, known_op s (oo_op o) t) ->
  (forall bid t, oo_op o <> cid -> known_in s (oo_op o) bid t -> exists cb, client_bundle K s bid = Ok cb) ->
  start_step H K s cid secret c o <> Err e.
Proof.
  intros Sd Hk Hc. unfold start_step. destruct (oo_op o =? cid) eqn:Eo; [discriminate|]. apply N.eqb_neq in Eo.
  destruct (Hk Eo) as (t & Ht). apply transition_ok in Ht. rewrite Ht. cbn [rbind].
  destruct (found_bundle H s _ _ Sd Ht) as (bid & Hki & Eb). rewrite Eb. cbn [of_index rmap_err rbind].
  destruct (Hc _ _ Eo Hki) as (cb & Ec). rewrite Ec. cbn [rbind].
  assert (Na : forall e, add_terminals bid (hits H secret t) (cl_terminals c) <> Err e).
  { intros e'. unfold add_terminals. apply rfold_no_err. intros m x _. destruct (mhas bid m); discriminate. }
  destruct (add_terminals _ _ _) as [tm|e'|]; cbn [rbind]; [|destruct (Na e' eq_refl)|discriminate].
  destruct (mhas bid (cl_bundles c)); cbn [rbind]; discriminate.
Qed.

(** One terminal in each bundle, of what was looked at so far *)
Definition once (done : list Opout) : Prop :=
  forall x bid oo t ty no oo' t' ty' no', secret = Some x ->
    In oo done -> oo_op oo <> cid -> known_in s (oo_op oo) bid t -> assigned_to H t ty no x ->
    In oo' done -> oo_op oo' <> cid -> known_in s (oo_op oo') bid t' -> assigned_to H t' ty' no' x ->
    oo = oo' /\ ty = ty' /\ no = no'.

Lemma start_step_once done c o c' : sound H s -> collected H K s cid secret done c -> once done ->
  start_step H K s cid secret c o = Ok c' -> once (done ++ [o]).
Proof.
  intros Sd C On. unfold start_step. destruct (oo_op o =? cid) eqn:Eo.
  { apply N.eqb_eq in Eo. intros _ x bid oo t ty no oo' t' ty' no' Es I1 N1 K1 A1 I2 N2 K2 A2.
    apply in_snoc in I1, I2. destruct I1 as [I1| ->]; [|congruence]. destruct I2 as [I2| ->]; [|congruence].
    eapply On; eassumption. }
  apply N.eqb_neq in Eo. destruct (transition s (oo_op o)) as [t0|e|] eqn:Et; cbn [rbind]; try discriminate.
  destruct (found_bundle H s _ _ Sd Et) as (bid0 & Hk & Eb). rewrite Eb. cbn [of_index rmap_err rbind].
  destruct (add_terminals bid0 (hits H secret t0) (cl_terminals c)) as [tm|e|] eqn:Ea; cbn [rbind]; try discriminate.
  intros _ x bid oo t ty no oo' t' ty' no' Es I1 N1 K1 A1 I2 N2 K2 A2.
  assert (Hmix : forall oo t ty no ty' no', In oo done -> oo_op oo <> cid -> known_in s (oo_op oo) bid t -> assigned_to H t ty no x ->
     known_in s (oo_op o) bid t0 -> assigned_to H t0 ty' no' x -> False).
  { intros oo1 t1 ty1 no1 ty1' no1' I N0 Kn As Kn0 As0.
    assert (Ez : mget bid (cl_terminals c) = Some x).
    { apply (cd_terms _ _ _ _ _ _ _ C). exists oo1, t1. split; [exact I|]. split; [exact N0|]. split; [exact Kn|]. apply hits_spec. eauto. }
    destruct (known_in_fun _ _ _ _ _ _ Hk Kn0) as [-> _].
    assert (Hx : In x (hits H secret t0)) by (apply hits_spec; eauto).
    apply add_terminals_ok in Ea. destruct Ea as [(Eh & _)|(y & Eh & En & _)]; [rewrite Eh in Hx; destruct Hx|congruence]. }
  apply in_snoc in I1, I2. destruct I1 as [I1| ->], I2 as [I2| ->].
  - eapply On; eassumption.
  - exfalso. destruct (known_in_fun _ _ _ _ _ _ Hk K2) as [-> ->]. eapply Hmix; eassumption.
  - exfalso. destruct (known_in_fun _ _ _ _ _ _ Hk K1) as [-> ->]. eapply Hmix; eassumption.
  - split; [reflexivity|]. destruct (known_in_fun _ _ _ _ _ _ Hk K1) as [<- <-], (known_in_fun _ _ _ _ _ _ Hk K2) as [_ <-].
    apply (hits_once H x t0); auto.
    + rewrite <- Es. apply add_terminals_ok in Ea. destruct Ea as [(-> & _)|(y & -> & _)]; cbn; lia.
    + destruct Hk as (_ & b & Eb' & Et'). apply (proj2 (proj2 (go_bundle _ _ (sd_stash _ _ Sd) _ _ Eb')) _ _ Et').
Qed.

Lemma collect_once outputs c outs : sound H s -> collect H K s cid outputs secret = Ok c ->
  start_outs s cid outputs secret = Ok outs -> once outs.
Proof.
  intros Sd. unfold collect. intros E Eo. rewrite Eo in E. cbn [rbind] in E.
  apply (rfold_inv (start_step H K s cid secret) (fun done c => collected H K s cid secret done c /\ once done)) with (done := []) (l := outs) in E.
  - apply E.
  - intros done s0 x s1 [C0 O0] E0. split; [eapply start_step_ok; eassumption|eapply start_step_once; eassumption].
  - split; [apply collected_empty|]. intros x bid oo t ty no oo' t' ty' no' _ [].
Qed.

Lemma collect_iff outputs : sound H s ->
  ((exists c, collect H K s cid outputs secret = Ok c) <->
   (exists outs, start_outs s cid outputs secret = Ok outs) /\
   (forall oo, found s cid outputs secret oo -> oo_op oo <> cid -> exists t, known_op s (oo_op oo) t) /\
   (forall oo bid t, found s cid outputs secret oo -> oo_op oo <> cid -> known_in s (oo_op oo) bid t ->
      exists cb, client_bundle K s bid = Ok cb) /\
   (forall x, secret = Some x -> one_terminal H s cid outputs x)).
Proof.
  intros Sd. split.
  - intros (c & E). destruct (collect_ok _ _ _ _ _ _ _ Sd E) as (outs & Eo & C).
    pose proof (start_outs_exact _ _ _ _ _ _ Sd Eo) as Hx. pose proof (collect_once _ _ _ Sd E Eo) as On.
    split; [eauto|]. split; [|split].
    + intros oo R Hn. apply (cd_known _ _ _ _ _ _ _ C); [apply Hx, R|exact Hn].
    + intros oo bid t R Hn Hk.
      assert (Hb : mhas bid (cl_bundles c) = true) by (apply (cd_bundles _ _ _ _ _ _ _ C); exists oo, t; split; [apply Hx, R|auto]).
      apply mhas_true in Hb as (cb & Hb). exists cb. apply (proj2 (cd_entries _ _ _ _ _ _ _ C)), Hb.
    + intros x Es bid oo t ty no oo' t' ty' no' R1 N1 K1 A1 R2 N2 K2 A2. rewrite <- Es in R1, R2. apply Hx in R1, R2.
      eapply (On x); eassumption.
  - intros ((outs & Eo) & Hk & Hc & Hu). pose proof (start_outs_exact _ _ _ _ _ _ Sd Eo) as Hx.
    pose proof (collect_no_panic H K s cid secret outputs Sd Hu) as Np. unfold collect in *. rewrite Eo in *. cbn [rbind] in *.
    match type of Np with ?r <> _ => destruct r as [c|e|] eqn:E end; [eauto| |congruence].
    exfalso. revert E. apply rfold_no_err. intros c o Hin. apply start_step_no_err; [exact Sd| |].
    + apply Hk. apply Hx, Hin.
    + intros bid t. apply Hc. apply Hx, Hin.
Qed.

(** ** The loop *)

Lemma walk_step_listed id m ps m' : sound H s -> entries_ok K s m -> walk_step H K s id m = Ok (ps, m') ->
  forall bid t b, known_in s id bid t -> mget bid (st_bundles (sk_stash s)) = Some b -> In id (mvals (b_inputs b)).
Proof.
  intros Sd [Hs Hm]. unfold walk_step.
  destruct (transition s id) as [t|e|] eqn:Et; cbn [rbind]; try discriminate.
  destruct (found_bundle _ _ _ _ Sd Et) as (bid & Hk & Eb). rewrite Eb. cbn [of_index rmap_err rbind].
  destruct (client_bundle K s bid) as [cb|e|] eqn:Ec; cbn [rbind]; try discriminate.
  assert (Ee : match mget bid m with Some cb => cb | None => cb end = cb).
  { destruct (mget bid m) as [cb'|] eqn:Em; [|reflexivity]. apply Hm in Em. congruence. }
  rewrite Ee. unfold reveal_transition. rewrite (known_keyed _ _ _ _ _ Sd Hk).
  destruct (forallb _ _) eqn:Ef; cbn [rbind rmap_err]; [discriminate|]. intros _ bid' t' b Hk' Eb'.
  destruct (known_in_fun _ _ _ _ _ _ Hk Hk') as [<- <-].
  destruct (client_bundle_ok _ _ _ _ Ec) as (ws & c & w & _ & _ & (Ebb & _) & _). rewrite Eb' in Ebb. apply Some_inj in Ebb. subst b.
  destruct (in_dec N.eq_dec id (mvals (b_inputs (cb_bundle cb)))) as [Hd|Hd]; [exact Hd|exfalso].
  assert (Ef' : forallb (fun x => negb (x =? id)) (mvals (b_inputs (cb_bundle cb))) = true); [|congruence].
  apply forallb_forall. intros x Hx. apply negb_true_iff, N.eqb_neq. intros ->. contradiction.
Qed.

Lemma walk_step_made id m bid t b : sound H s -> entries_ok K s m -> known_in s id bid t ->
  (exists cb, client_bundle K s bid = Ok cb) -> mget bid (st_bundles (sk_stash s)) = Some b -> In id (mvals (b_inputs b)) ->
  exists r, walk_step H K s id m = Ok r.
Proof.
  intros Sd [Hs Hm] Hk (cb & Ec) Eb Hin. unfold walk_step.
  rewrite (proj2 (transition_ok s id t) (ex_intro _ bid Hk)). cbn [rbind].
  rewrite (known_keyed _ _ _ _ _ Sd Hk). unfold bundle_id_for_op. pose proof (proj1 Hk) as Ei. unfold states in Ei. rewrite Ei.
  cbn [ok_or of_index rmap_err rbind]. rewrite Ec. cbn [rbind].
  assert (Ee : match mget bid m with Some cb => cb | None => cb end = cb).
  { destruct (mget bid m) as [cb'|] eqn:Em; [|reflexivity]. apply Hm in Em. congruence. }
  rewrite Ee. unfold reveal_transition. rewrite (known_keyed _ _ _ _ _ Sd Hk).
  destruct (client_bundle_ok _ _ _ _ Ec) as (ws & c & w & _ & _ & (Ebb & _) & _). rewrite Eb in Ebb. apply Some_inj in Ebb. subst b.
  destruct (forallb _ _) eqn:Ef.
  { exfalso. rewrite forallb_forall in Ef. specialize (Ef _ Hin). rewrite N.eqb_refl in Ef. discriminate. }
  assert (Eh : mhas id (b_known (cb_bundle cb)) = true).
  { destruct Hk as (_ & b' & Eb' & Et'). rewrite Eb in Eb'. apply Some_inj in Eb'. subst b'. apply mhas_true. eauto. }
  rewrite Eh. cbn [rmap_err rbind]. eauto.
Qed.

Lemma walk_listed fuel : sound H s -> forall ids m out, entries_ok K s m -> walk H K s cid fuel ids m = Some (Ok out) ->
  forall id bid t b, reached s cid (fun x => In x ids) id -> known_in s id bid t ->
    mget bid (st_bundles (sk_stash s)) = Some b -> In id (mvals (b_inputs b)).
Proof.
  intros Sd. induction fuel as [|n IH]; intros [|id0 rest] m out Em E; cbn [walk] in E; try discriminate;
    try (intros id bid t b R; destruct (reached_none _ _ _ R)).
  intros id bid t b R Hk Eb. destruct (id0 =? cid) eqn:Ei.
  - apply N.eqb_eq in Ei. subst id0. apply (IH _ _ _ Em E id bid t b); [apply reached_genesis; exact R|exact Hk|exact Eb].
  - apply N.eqb_neq in Ei. destruct (walk_step H K s id0 m) as [[ps m']|e|] eqn:Ew; try discriminate.
    destruct (walk_step_ok _ _ _ _ _ _ _ Sd Em Ew) as (t0 & bid0 & cb & Hk0 & -> & Ec & ->).
    apply (reached_unfold s cid id0 rest t0 bid0 _ Hk0 Ei) in R. destruct R as [->|R].
    + eapply walk_step_listed; [exact Sd|exact Em|exact Ew|exact Hk|exact Eb].
    + apply (IH _ _ _ (entries_insert _ _ _ _ _ Ec Em) E id bid t b R Hk Eb).
Qed.

Lemma walk_made fuel : sound H s -> forall ids m r, entries_ok K s m ->
  (forall id, reached s cid (fun x => In x ids) id -> exists bid t b, known_in s id bid t /\
     (exists cb, client_bundle K s bid = Ok cb) /\ mget bid (st_bundles (sk_stash s)) = Some b /\ In id (mvals (b_inputs b))) ->
  walk H K s cid fuel ids m = Some r -> exists out, r = Ok out.
Proof.
  intros Sd. induction fuel as [|n IH]; intros [|id0 rest] m r Em Hr E; cbn [walk] in E; try discriminate;
    try (injection E as <-; eauto; fail).
  destruct (id0 =? cid) eqn:Ei.
  - apply N.eqb_eq in Ei. subst id0. apply (IH rest m); [exact Em| |exact E].
    intros id R. apply Hr. apply reached_genesis. exact R.
  - apply N.eqb_neq in Ei.
    destruct (Hr id0 (reached_start s cid _ id0 (or_introl eq_refl) Ei)) as (bid & t & b & Hk & Hc & Eb & Hin).
    destruct (walk_step_made _ m _ _ _ Sd Em Hk Hc Eb Hin) as ([ps m'] & Ew). rewrite Ew in E.
    destruct (walk_step_ok _ _ _ _ _ _ _ Sd Em Ew) as (t0 & bid0 & cb & Hk0 & -> & Ec & ->).
    apply (IH _ _ _ (entries_insert _ _ _ _ _ Ec Em)) in E; [exact E|].
    intros id R. apply Hr. apply (reached_unfold s cid id0 rest t0 bid0 _ Hk0 Ei). right. exact R.
Qed.
End Collect.

(** ** Bundles by witness *)

Section Group.
Context (H : Hashes) (K : Merkle) (s : Stock).

Lemma goes_chosen bid cb w : sound H s -> client_bundle K s bid = Ok cb -> (goes_to K s cb w <-> chosen s bid w).
Proof.
  intros Sd Ec. split.
  - intros (bid' & ws & cid & Ec' & Ei & Es).
    assert (bid' = bid) by (rewrite <- (made_id H K s bid cb Sd Ec), (made_id H K s bid' cb Sd Ec'); reflexivity). subst bid'.
    apply (chosen_iff s bid ws cid); [apply Sd|exact Ei|exact Es].
  - intros Ch. destruct (client_bundle_ok _ _ _ _ Ec) as (ws & cid & w' & Ei & Es & _).
    apply (chosen_iff s bid ws cid) in Ch; [|apply Sd|exact Ei]. exists bid, ws, cid. auto.
Qed.
Lemma goes_fun cb w w' : sound H s -> goes_to K s cb w -> goes_to K s cb w' -> w = w'.
Proof.
  intros Sd G G'. destruct G as (bid & ws & cid & Ec & R). assert (G : goes_to K s cb w) by (exists bid, ws, cid; auto).
  apply (goes_chosen bid cb _ Sd Ec) in G, G'. eapply chosen_fun; eassumption.
Qed.

(** Under one witness there is one bundle for each closing method. *)
Definition fits (l : list ClientBundle) : Prop := forall cb cb' w, In cb l -> In cb' l ->
  goes_to K s cb w -> goes_to K s cb' w -> b_method (cb_bundle cb) = b_method (cb_bundle cb') -> cb = cb'.

Lemma anchor_same cb cb' : cb_anchor cb = cb_anchor cb' -> cb_bundle cb = cb_bundle cb' -> cb = cb'.
Proof. destruct cb, cb'. unfold cb_anchor. cbn. intros E1 E2. injection E1 as -> ->. subst. reflexivity. Qed.

Lemma carries_one ab a b a' b' : methods_ok ab -> carries ab a b -> carries ab a' b' -> b_method b = b_method b' -> a = a' /\ b = b'.
Proof.
  intros Mo C C'. destruct C; inversion C'; subst; auto; cbn in Mo; destruct Mo; intros; congruence.
Qed.

Lemma group_fits l gr : sound H s -> all_made K s l -> rfold (group_step K H s) [] l = Ok gr -> fits l.
Proof.
  intros Sd Hm E. pose proof (group_all H K s l Sd Hm [] [] gr (grouped_empty _ _) E) as G. cbn [app] in G.
  assert (Mo : forall w wb, mget w gr = Some wb -> methods_ok (wb_bundles wb)).
  { apply (group_methods H K s l) with (acc := []); [|intros w wb F; discriminate F|exact E].
    intros cb Hi. destruct (Hm _ Hi) as (bid & Ec).
    destruct (client_bundle_ok _ _ _ _ Ec) as (ws & ci & w & _ & _ & _ & Em). exact Em. }
  assert (At : forall cb w, In cb l -> goes_to K s cb w -> exists wb, mget w gr = Some wb /\ carries (wb_bundles wb) (cb_anchor cb) (cb_bundle cb)).
  { intros cb w Hi Gt. destruct (gr_all _ _ _ _ G _ Hi) as (w' & wb & Eg & Ca).
    destruct (gr_from _ _ _ _ G _ _ _ _ Eg Ca) as (cb2 & _ & Ea & Eb & Gt2). pose proof (anchor_same _ _ Ea Eb) as <-.
    rewrite (goes_fun _ _ _ Sd Gt Gt2). eauto. }
  intros cb cb' w I I' Gt Gt' Em. destruct (At _ _ I Gt) as (wb & Eg & Ca), (At _ _ I' Gt') as (wb' & Eg' & Ca').
  rewrite Eg in Eg'. apply Some_inj in Eg'. subst wb'. specialize (Mo _ _ Eg).
  destruct (carries_one _ _ _ _ _ Mo Ca Ca' Em). apply anchor_same; assumption.
Qed.

Lemma slot_taken wb cb e : dp_method (cb_dbc cb) = b_method (cb_bundle cb) -> methods_ok (wb_bundles wb) ->
  into_double wb cb = Err e -> exists a b, carries (wb_bundles wb) a b /\ b_method b = b_method (cb_bundle cb).
Proof.
  intros Em Mo. unfold into_double. rewrite (new_same cb Em). rewrite <- Em.
  destruct (wb_bundles wb) as [t|o|t o]; destruct (dp_method (cb_dbc cb)) eqn:Ed; cbn [rbind]; try discriminate; intros _; cbn in Mo.
  - exists (cb_anchor t), (cb_bundle t). split; [constructor|exact Mo].
  - exists (cb_anchor o), (cb_bundle o). split; [constructor|exact Mo].
  - exists (cb_anchor o), (cb_bundle o). split; [apply carries_double_opret|apply Mo].
  - exists (cb_anchor t), (cb_bundle t). split; [constructor|apply Mo].
Qed.

Lemma group_made l : sound H s -> all_made K s l -> NoDup l -> fits l -> exists gr, rfold (group_step K H s) [] l = Ok gr.
Proof.
  intros Sd Hm Nd Ft.
  assert (Dm : forall cb, In cb l -> dp_method (cb_dbc cb) = b_method (cb_bundle cb)).
  { intros cb Hi. destruct (Hm _ Hi) as (bid & Ec).
    destruct (client_bundle_ok _ _ _ _ Ec) as (ws & ci & w & _ & _ & _ & Em). exact Em. }
  destruct (rfold_ok (group_step K H s) (fun done acc => grouped K s done acc /\ forall w wb, mget w acc = Some wb -> methods_ok (wb_bundles wb)) l)
    with (l := l) (done := @nil ClientBundle) (s := @nil (WitnessId * WitnessBundle)) as (gr & E & _); [|reflexivity| |eauto].
  2: { split; [apply grouped_empty|intros w wb F; discriminate F]. }
  intros done acc cb (post & El) [G Mo].
  assert (Hi : In cb l) by (rewrite El; apply in_or_app; right; left; reflexivity).
  destruct (Hm _ Hi) as (bid & Ec).
  assert (Ex : exists acc', group_step K H s acc cb = Ok acc').
  { unfold group_step. rewrite (made_id _ _ _ _ _ Sd Ec).
    destruct (client_bundle_ok _ _ _ _ Ec) as (ws & cid & w & Ei & Es & A & Em). rewrite Ei. cbn [of_index rmap_err rbind fst].
    rewrite Es. cbn [of_state rmap_err rbind]. destruct A as (_ & _ & _ & c1 & sw & an & _ & Ew & _). unfold of_stash, stash_witness.
    rewrite Ew. cbn [ok_or rmap_err rbind].
    destruct (mget w acc) as [old|] eqn:Eo.
    - destruct (into_double old cb) as [wb|e|] eqn:Ed; cbn [rmap_err rbind]; [eauto| |destruct (into_double_no_panic _ _ Em Ed)].
      exfalso. destruct (slot_taken _ _ _ Em (Mo _ _ Eo) Ed) as (a & b & Ca & Eb).
      destruct (gr_from _ _ _ _ G _ _ _ _ Eo Ca) as (cb' & Hin & -> & -> & Gt).
      assert (cb' = cb).
      { apply (Ft cb' cb w); auto; [rewrite El; apply in_or_app; left; exact Hin|exists bid, ws, cid; auto]. }
      subst cb'. rewrite El in Nd. apply NoDup_remove_2 in Nd. apply Nd, in_or_app. left. exact Hin.
    - destruct (@wb_with ConsignError (sw_public sw) cb) as [wb|e|] eqn:Ed; cbn [rbind]; [eauto| |destruct (wb_with_no_panic _ _ Em Ed)].
      exfalso. revert Ed. unfold wb_with, anchored_from. rewrite !(new_same cb Em). destruct (dp_method (cb_dbc cb)); cbn; discriminate. }
  destruct Ex as (acc' & E). exists acc'. split; [exact E|]. split; [eapply group_step_ok; eassumption|].
  apply (group_methods H K s [cb]) with (acc := acc).
  - intros cb' [<-|[]]. apply Dm, Hi.
  - exact Mo.
  - cbn [rfold]. rewrite E. reflexivity.
Qed.

Lemma group_keys l gr : sound H s -> all_made K s l -> rfold (group_step K H s) [] l = Ok gr ->
  msorted gr /\ forall w, mhas w gr = true <-> exists cb, In cb l /\ goes_to K s cb w.
Proof.
  intros Sd Hm E. pose proof (group_all H K s l Sd Hm [] [] gr (grouped_empty _ _) E) as G. cbn [app] in G.
  split; [apply (gr_sorted _ _ _ _ G)|]. intros w. rewrite mhas_true. split.
  - intros (wb & Ew). assert (Ca : exists a b, carries (wb_bundles wb) a b).
    { destruct (wb_bundles wb) as [t|o|t o]; eexists; eexists; constructor. }
    destruct Ca as (a & b & Ca). destruct (gr_from _ _ _ _ G _ _ _ _ Ew Ca) as (cb & Hi & _ & _ & Gt). eauto.
  - intros (cb & Hi & Gt). destruct (gr_all _ _ _ _ G _ Hi) as (w' & wb & Eg & Ca).
    destruct (gr_from _ _ _ _ G _ _ _ _ Eg Ca) as (cb2 & _ & Ea & Eb & Gt2). pose proof (anchor_same _ _ Ea Eb) as <-.
    rewrite (goes_fun _ _ _ Sd Gt Gt2). eauto.
Qed.

Lemma entries_nodup m : sound H s -> entries_ok K s m -> NoDup (mvals m).
Proof.
  intros Sd [Sm Hm]. assert (Nk : NoDup (mkeys m)) by (apply msorted_NoDup, Sm).
  assert (Ek : mkeys m = map (fun cb => bundle_id H (cb_bundle cb)) (mvals m)).
  { unfold mkeys, mvals. rewrite map_map. apply map_ext_in. intros [k cb] Hi. cbn [fst snd]. symmetry.
    apply (made_id H K s); [exact Sd|]. apply Hm. apply In_mget; assumption. }
  rewrite Ek in Nk. apply NoDup_map_inv in Nk. exact Nk.
Qed.
End Group.

(** ** Definitions *)

Lemma ifaces_iff s impls : forall acc ifs,
  rfold (fun (acc : list (IfaceRec * ImplRec)) (p : N * ImplRec) => let! i := of_stash (iface_by_name s (fst p)) in Ok (acc ++ [(i, snd p)])) acc impls = Ok ifs <->
  exists l, ifs = acc ++ l /\ Forall2 (fun p q => snd q = snd p /\ iface_by_name s (fst p) = Ok (fst q)) impls l.
Proof.
  induction impls as [|[name im] impls IH]; intros acc ifs; cbn [rfold].
  - split.
    + intros E. apply Ok_inj in E. subst ifs. exists []. rewrite app_nil_r. auto.
    + intros (l & -> & F). inversion F; subst. rewrite app_nil_r. reflexivity.
  - cbn [fst snd]. unfold of_stash at 1. destruct (iface_by_name s name) as [i|e|] eqn:Ei; cbn [rmap_err rbind].
    + rewrite IH. split.
      * intros (l & -> & F). exists ((i, im) :: l). rewrite <- app_assoc. split; [reflexivity|]. constructor; auto.
      * intros (l & -> & F). inversion F as [|p q l1 l2 [E1 E2] F' X1 X2]; subst. destruct q as [i' im']. cbn [fst snd] in *.
        rewrite Ei in E2. apply Ok_inj in E2. subst. exists l2. rewrite <- app_assoc. auto.
    + split; [discriminate|]. intros (l & -> & F). inversion F as [|p q l1 l2 [E1 E2] F' X1 X2]; subst. cbn [fst] in E2. congruence.
    + split; [discriminate|]. intros (l & -> & F). inversion F as [|p q l1 l2 [E1 E2] F' X1 X2]; subst. cbn [fst] in E2. congruence.
Qed.

Lemma pick_iff (f : N -> result ConsignError N) ids : (forall id, f id <> Panic) ->
  ((exists m, rfold (fun m id => let! t := f id in Ok (minsert id t m)) [] ids = Ok m) <-> forall id, In id ids -> exists t, f id = Ok t).
Proof.
  intros Np. split.
  - intros (m & E). apply (proj2 (pick_ok f ids m E)).
  - intros Hf. pose proof (pick_no_panic f ids Np []) as N1.
    match type of N1 with ?r <> _ => destruct r as [c|e|] eqn:E end; [eauto| |congruence].
    exfalso. revert E. apply rfold_no_err. intros m x Hin. destruct (Hf _ Hin) as (t & ->). cbn. discriminate.
Qed.
Lemma pick_sorted (f : N -> result ConsignError N) ids : forall m0 m, msorted m0 ->
  rfold (fun m id => let! t := f id in Ok (minsert id t m)) m0 ids = Ok m -> msorted m.
Proof.
  induction ids as [|x ids IH]; intros m0 m S0 E; cbn [rfold] in E; [apply Ok_inj in E; subst; exact S0|].
  destruct (f x) as [t|e|]; cbn [rbind] in E; try discriminate. apply (IH (minsert x t m0)); [apply minsert_sorted, S0|exact E].
Qed.

Lemma extract_iff s sc ifs : (exists r, extract s sc ifs = Ok r) <->
  (forall id, In id (sch_types sc ++ flat_map if_types ifs) -> mget id (st_types s) <> None) /\
  (forall id, In id (sch_libs sc) -> mget id (st_libs s) <> None) /\
  at_most U8MAX (fun id => In id (sch_libs sc)).
Proof.
  unfold extract.
  set (ft := fun id => ok_or (TypeAbsent id) (mget id (st_types s))).
  set (fl := fun id => of_stash (stash_lib s id)).
  assert (Ht : forall id, (exists t, ft id = Ok t) <-> mget id (st_types s) <> None).
  { intros id. unfold ft. destruct (mget id (st_types s)); cbn; split; try congruence; [eauto|intros (t & F); discriminate]. }
  assert (Hl : forall id, (exists t, fl id = Ok t) <-> mget id (st_libs s) <> None).
  { intros id. unfold fl, of_stash, stash_lib. destruct (mget id (st_libs s)); cbn; split; try congruence; [eauto|intros (t & F); discriminate]. }
  pose proof (pick_iff ft (sch_types sc ++ flat_map if_types ifs)) as P1.
  pose proof (pick_iff fl (sch_libs sc)) as P2.
  assert (N1 : forall id, ft id <> Panic) by (intros id; unfold ft; destruct (mget _ _); discriminate).
  assert (N2 : forall id, fl id <> Panic) by (intros id; unfold fl, of_stash, stash_lib; destruct (mget _ _); discriminate).
  specialize (P1 N1). specialize (P2 N2). setoid_rewrite Ht in P1. setoid_rewrite Hl in P2. rewrite <- P1, <- P2.
  change (fun m id => let! t := ok_or (TypeAbsent id) (mget id (st_types s)) in Ok (minsert id t m)) with (fun m id => let! t := ft id in Ok (minsert id t m)).
  change (fun m id => let! l := of_stash (stash_lib s id) in Ok (minsert id l m)) with (fun m id => let! t := fl id in Ok (minsert id t m)).
  clear P1 P2.
  destruct (@rfold ConsignError _ _ _ _ (sch_types sc ++ _)) as [ty|e|] eqn:E1; cbn [rbind].
  - destruct (@rfold ConsignError _ _ _ _ (sch_libs sc)) as [lb|e|] eqn:E2; cbn [rbind].
    + assert (Am : at_most U8MAX (fun id => In id (sch_libs sc)) <-> len lb <= U8MAX).
      { apply at_most_map; [apply (pick_sorted fl _ _ _ msorted_nil E2)|]. destruct (pick_ok fl _ _ E2) as [B1 B2].
        intros x. rewrite mhas_true. split; [intros (v & Ev); apply B1 in Ev; apply Ev|].
        intros Hi. destruct (B2 _ Hi) as (t & Et). exists t. apply B1. auto. }
      rewrite Am. destruct (len lb <=? U8MAX) eqn:El.
      * apply N.leb_le in El. split; [intros _|eauto]. split; [eauto|]. split; [eauto|exact El].
      * apply N.leb_gt in El. split; [intros (r & F); discriminate|]. intros (_ & _ & F). lia.
    + split; [intros (r & F); discriminate|]. intros (_ & (m & F) & _). discriminate.
    + split; [intros (r & F); discriminate|]. intros (_ & (m & F) & _). discriminate.
  - split; [intros (r & F); discriminate|]. intros ((m & F) & _). discriminate.
  - split; [intros (r & F); discriminate|]. intros ((m & F) & _). discriminate.
Qed.

Lemma contents_iff cid schema ifs ct : In ct (contents_of cid schema ifs) <-> content cid schema ifs ct.
Proof.
  unfold contents_of. cbn [In]. rewrite in_flat_map. split.
  - intros [<-|[<-|([i im] & Hin & [<-|[<-|[]]])]]; [constructor|constructor|eapply ct_iface; exact Hin|eapply ct_impl; exact Hin].
  - intros C. inversion C as [E|E|i im Hin E|i im Hin E]; subst; auto; right; right; exists (i, im); (split; [exact Hin|]); cbn; auto.
Qed.

Lemma suppls_sorted st l : forall m, ssorted m -> ssorted (fold_left (fun m c => add_suppl st c m) l m).
Proof.
  induction l as [|c l IH]; intros m Sm; [exact Sm|]. cbn [fold_left]. apply IH. unfold add_suppl.
  destruct (stash_supplement st c); [apply sinsert_sorted|]; exact Sm.
Qed.

Section Whole.
Context (H : Hashes) (K : Merkle) (s : Stock) (cid : N).

(** What the last part asks for, once the bundles and terminals are known *)
Lemma assemble_iff transfer terms anch : sound H s -> entries_ok K s anch ->
  ((exists c, assemble H K s transfer cid terms anch = Ok c) <->
   definable (sk_stash s) cid /\ fits K s (mvals anch) /\
   at_most U32MAX (fun w => exists cb, In cb (mvals anch) /\ goes_to K s cb w) /\ len terms <= U16MAX).
Proof.
  intros Sd En. pose proof (entries_made K s anch En) as Hm. unfold assemble, definable.
  unfold of_stash at 1, stash_genesis at 1.
  destruct (mget cid (st_geneses (sk_stash s))) as [g|] eqn:Eg; cbn [ok_or rmap_err rbind].
  2: { split; [intros (c & F); discriminate|]. intros ((g & si & ifs & F & _) & _). discriminate. }
  unfold of_stash at 1, stash_schema at 1.
  destruct (mget (g_schema g) (st_schemata (sk_stash s))) as [si|] eqn:Ei; cbn [ok_or rmap_err rbind].
  2: { split; [intros (c & F); discriminate|]. intros ((g' & si & ifs & F & F' & _) & _). apply Some_inj in F. subst g'. congruence. }
  unfold ifaces_of.
  destruct (rfold _ _ (si_impls si)) as [ifs|e|] eqn:Ef; cbn [rbind].
  2, 3: (split; [intros (c & F); discriminate|]; intros ((g' & si' & ifs & F & F' & F2 & _) & _); apply Some_inj in F; subst g';
         rewrite Ei in F'; apply Some_inj in F'; subst si'; exfalso;
         assert (Y : exists l, ifs = [] ++ l /\ Forall2 (fun p q => snd q = snd p /\ iface_by_name (sk_stash s) (fst p) = Ok (fst q)) (si_impls si) l) by (exists ifs; auto);
         apply ifaces_iff in Y; rewrite Ef in Y; discriminate).
  apply ifaces_iff in Ef. destruct Ef as (l & El & F2). cbn [app] in El. subst l.
  assert (Un : forall g' si' ifs', Some g = Some g' -> mget (g_schema g') (st_schemata (sk_stash s)) = Some si' ->
    Forall2 (fun p q => snd q = snd p /\ iface_by_name (sk_stash s) (fst p) = Ok (fst q)) (si_impls si') ifs' -> g' = g /\ si' = si /\ ifs' = ifs).
  { intros g' si' ifs' F F' F2'. apply Some_inj in F. subst g'. rewrite Ei in F'. apply Some_inj in F'. subst si'.
    split; [reflexivity|]. split; [reflexivity|]. revert F2 F2'. generalize (si_impls si) as im. intros im F2. revert ifs'.
    induction F2 as [|p q l1 l2 [E1 E2] F2 IH]; intros ifs' F2'; inversion F2' as [|p' q' l1' l2' [E1' E2'] F3]; subst; [reflexivity|].
    f_equal; [|apply IH, F3]. destruct q, q'. cbn [fst snd] in *. rewrite E2 in E2'. apply Ok_inj in E2'. congruence. }
  pose proof (extract_iff (sk_stash s) (si_schema si) (map fst ifs)) as Xi.
  assert (Hi : forall id, In id (flat_map if_types (map fst ifs)) <-> exists i im, In (i, im) ifs /\ In id (if_types i)).
  { intros id. rewrite in_flat_map. split.
    - intros (i & Hin & Hid). apply in_map_iff in Hin as ([i' im] & <- & Hin). exists i', im. auto.
    - intros (i & im & Hin & Hid). exists i. split; [apply in_map_iff; exists (i, im); auto|exact Hid]. }
  set (sigs := fold_left (fun m c => add_sig (sk_stash s) c m) (contents_of cid (g_schema g) ifs) []).
  set (suppl := fold_left (fun m c => add_suppl (sk_stash s) c m) (contents_of cid (g_schema g) ifs) []).
  assert (Hsg : at_most U8MAX (fun ct => content cid (g_schema g) ifs ct /\ mget ct (st_sigs (sk_stash s)) <> None) <-> len sigs <= U8MAX).
  { apply at_most_map; [apply sigs_sorted, msorted_nil|]. intros ct. rewrite mhas_true, <- contents_iff. unfold sigs. split.
    - intros (x & E). apply add_sigs_get in E. destruct E as [[I E]|[E _]]; [|discriminate]. split; [exact I|congruence].
    - intros [I Nn]. destruct (mget ct (st_sigs (sk_stash s))) as [x|] eqn:Ex; [|congruence]. exists x. apply add_sigs_get. auto. }
  assert (Hsp : at_most U8MAX (fun x => exists ct, content cid (g_schema g) ifs ct /\ first_note (sk_stash s) ct x) <-> len suppl <= U8MAX).
  { apply at_most_list; [apply ssorted_NoDup, suppls_sorted, ssorted_nil|]. intros x. unfold suppl. rewrite add_suppls_get. split.
    - intros [(ct & I & F)|[]]. exists ct. rewrite <- contents_iff. auto.
    - intros (ct & I & F). left. exists ct. rewrite contents_iff. auto. }
  assert (Df : (exists g0 si0 ifaces, Some g = Some g0 /\ mget (g_schema g0) (st_schemata (sk_stash s)) = Some si0 /\
      Forall2 (fun p q => snd q = snd p /\ iface_by_name (sk_stash s) (fst p) = Ok (fst q)) (si_impls si0) ifaces /\
      (forall id, In id (sch_types (si_schema si0)) -> mget id (st_types (sk_stash s)) <> None) /\
      (forall i im id, In (i, im) ifaces -> In id (if_types i) -> mget id (st_types (sk_stash s)) <> None) /\
      (forall id, In id (sch_libs (si_schema si0)) -> mget id (st_libs (sk_stash s)) <> None) /\
      at_most U8MAX (fun id => In id (sch_libs (si_schema si0))) /\
      at_most U8MAX (fun ct => content cid (g_schema g0) ifaces ct /\ mget ct (st_sigs (sk_stash s)) <> None) /\
      at_most U8MAX (fun x => exists ct, content cid (g_schema g0) ifaces ct /\ first_note (sk_stash s) ct x)) <->
    (exists r, extract (sk_stash s) (si_schema si) (map fst ifs) = Ok r) /\ len sigs <= U8MAX /\ len suppl <= U8MAX).
  { rewrite <- Hsg, <- Hsp, Xi. split.
    - intros (g' & si' & ifs' & D1 & D2 & D3 & D4 & D5 & D6 & D7 & D8 & D9). destruct (Un _ _ _ D1 D2 D3) as (-> & -> & ->).
      split; [|auto]. split; [|auto]. intros id I. apply in_app_or in I. rewrite Hi in I. destruct I as [I|(i & im & I1 & I2)]; eauto.
    - intros ((D1 & D2 & D3) & D4 & D5). exists g, si, ifs. split; [reflexivity|]. split; [exact Ei|]. split; [exact F2|].
      split; [intros id I; apply D1, in_or_app; auto|]. split; [|auto].
      intros i im id I1 I2. apply D1, in_or_app. right. apply Hi. eauto. }
  rewrite Df. clear Df Xi Un.
  destruct (rfold (group_step K H s) [] (mvals anch)) as [gr|e|] eqn:Er; cbn [rbind].
  - destruct (group_keys H K s _ _ Sd Hm Er) as [Sg Kg].
    assert (Hg : at_most U32MAX (fun w => exists cb, In cb (mvals anch) /\ goes_to K s cb w) <-> len gr <= U32MAX) by (apply at_most_map; assumption).
    rewrite Hg. pose proof (group_fits H K s _ _ Sd Hm Er) as Ft.
    destruct (len gr <=? U32MAX) eqn:E1; cbn [negb].
    2: { apply N.leb_gt in E1. split; [intros (c & F); discriminate|]. intros (_ & _ & F & _). lia. }
    apply N.leb_le in E1. destruct (len terms <=? U16MAX) eqn:E2; cbn [negb].
    2: { apply N.leb_gt in E2. split; [intros (c & F); discriminate|]. intros (_ & _ & _ & F). lia. }
    apply N.leb_le in E2. destruct (extract _ _ _) as [ex|e|] eqn:Ee; cbn [rbind].
    2, 3: (split; [intros (c & F); discriminate|]; intros (((r & F) & _) & _); discriminate).
    destruct (len suppl <=? U8MAX) eqn:E3; cbn [negb].
    2: { apply N.leb_gt in E3. split; [intros (c & F); discriminate|]. intros ((_ & _ & F) & _). lia. }
    destruct (len sigs <=? U8MAX) eqn:E4; cbn [negb].
    2: { apply N.leb_gt in E4. split; [intros (c & F); discriminate|]. intros ((_ & F & _) & _). lia. }
    apply N.leb_le in E3, E4. split; [intros _|intros _; eauto].
    split; [split; [eauto|auto]|]. auto.
  - split; [intros (c & F); discriminate|]. intros (_ & Ft & _).
    destruct (group_made H K s _ Sd Hm (entries_nodup H K s _ Sd En) Ft) as (gr & F). congruence.
  - destruct (group_all_no_panic H K s (mvals anch) Sd Hm [] [] (grouped_empty _ _) Er).
Qed.

Context (outputs : list OutSeal) (secret : option N).

(** The bundles gathered are those of the history. *)
Lemma gathered outs co m fuel : sound H s -> start_outs s cid outputs secret = Ok outs ->
  collected H K s cid secret outs co -> walk H K s cid fuel (start_ids (cl_transitions co)) (cl_bundles co) = Some (Ok m) ->
  entries_ok K s m /\ forall bid, mhas bid m = true <-> exists id t, found_history s cid outputs secret id /\ known_in s id bid t.
Proof.
  intros Sd Eo C Ew. pose proof (history_split H K s cid outputs secret outs co) as Hs.
  destruct (walk_ok H K s cid fuel Sd _ _ _ (cd_entries _ _ _ _ _ _ _ C) Ew) as (W1 & W2 & W3). split; [exact W1|].
  intros bid. rewrite W2, (cd_bundles _ _ _ _ _ _ _ C). split.
  - intros [(oo & t & Hin & Hn & Hk)|(id & t & R & Hk)].
    + exists (oo_op oo), t. split; [|exact Hk]. apply Hs; auto. left. eauto.
    + exists id, t. split; [|exact Hk]. apply Hs; auto.
  - intros (id & t & R & Hk). apply Hs in R; auto. destruct R as [(oo & Hin & <- & Hn)|R]; [left|right]; eauto.
Qed.

(** The visited operations are the inputs of the history. *)
Lemma visited outs co id : sound H s -> start_outs s cid outputs secret = Ok outs ->
  collected H K s cid secret outs co ->
  (reached s cid (fun x => In x (start_ids (cl_transitions co))) id <->
   id <> cid /\ exists id' t i, found_history s cid outputs secret id' /\ known_op s id' t /\ In i (op_inputs t) /\ oo_op i = id).
Proof.
  intros Sd Eo C. pose proof (start_outs_exact _ _ _ _ _ _ Sd Eo) as Hx.
  assert (Hst : forall x, In x (start_ids (cl_transitions co)) <->
    exists oo t i, In oo outs /\ oo_op oo <> cid /\ known_op s (oo_op oo) t /\ In i (op_inputs t) /\ oo_op i = x).
  { intros x. unfold start_ids. rewrite <- in_rev, in_flat_map. split.
    - intros (t & Ht & Hp). apply In_mvals in Ht; [|apply (cd_sorted _ _ _ _ _ _ _ C)]. destruct Ht as (k & Ht).
      apply (cd_trans _ _ _ _ _ _ _ C) in Ht. destruct Ht as (Hn & (oo & Hin & Ek) & Hk). subst k.
      unfold parents in Hp. apply in_map_iff in Hp as (i & Ei & Hi). exists oo, t, i. auto.
    - intros (oo & t & i & Hin & Hn & Hk & Hi & Ei). exists t. split; [|unfold parents; apply in_map_iff; eauto].
      apply In_mvals; [apply (cd_sorted _ _ _ _ _ _ _ C)|]. exists (oo_op oo). apply (cd_trans _ _ _ _ _ _ _ C).
      split; [exact Hn|]. split; [eauto|exact Hk]. }
  pose proof (history_split H K s cid outputs secret outs co) as Hs. split.
  - intros R. induction R as [y Hy Hn|y t i R IH Hk Hi Hn]; (split; [exact Hn|]).
    + apply Hst in Hy. destruct Hy as (oo & t & i & Hin & Hno & Hk & Hi & Ei). exists (oo_op oo), t, i.
      split; [|auto]. apply reached_start; [|exact Hno]. exists oo. split; [apply Hx, Hin|reflexivity].
    + exists y, t, i. split; [|auto]. apply Hs; auto.
  - intros (Hn & id' & t & i & R & Hk & Hi & Ei). apply Hs in R; auto. destruct R as [(oo & Hin & Eo' & Hno)|R].
    + apply reached_start; [|exact Hn]. apply Hst. exists oo, t, i. subst id'. auto.
    + subst id. eapply reached_parent; eassumption.
Qed.

Lemma consign_iff transfer : sound H s -> acyclic s ->
  ((exists fuel c, consign H K fuel s transfer cid outputs secret = Some (Ok c)) <-> exportable H K s cid outputs secret).
Proof.
  intros Sd Ha.
  assert (Cb : forall bid, (exists cb, client_bundle K s bid = Ok cb) <-> exists w a b, chosen s bid w /\ anchored K s bid w a b).
  { intros bid. split.
    - intros (cb & E). destruct (client_chosen H K s bid cb Sd E) as (w & Ch & An & _). eauto.
    - intros (w & a & b & Ch & An). eapply client_made; eassumption. }
  assert (Hst : forall oo, found s cid outputs secret oo -> oo_op oo <> cid -> found_history s cid outputs secret (oo_op oo)).
  { intros oo R Hn. apply reached_start; [exists oo; auto|exact Hn]. }
  assert (Ft : forall m, entries_ok K s m -> (forall bid, mhas bid m = true <-> exists id t, found_history s cid outputs secret id /\ known_in s id bid t) ->
    (fits K s (mvals m) <-> (forall id bid t id' bid' t' w b b',
       found_history s cid outputs secret id -> known_in s id bid t -> found_history s cid outputs secret id' -> known_in s id' bid' t' ->
       chosen s bid w -> chosen s bid' w ->
       mget bid (st_bundles (sk_stash s)) = Some b -> mget bid' (st_bundles (sk_stash s)) = Some b' ->
       b_method b = b_method b' -> bid = bid'))).
  { intros m W1 Hd. assert (Bn : forall bid cb, mget bid m = Some cb -> client_bundle K s bid = Ok cb /\ mget bid (st_bundles (sk_stash s)) = Some (cb_bundle cb)).
    { intros bid cb E. apply W1 in E. split; [exact E|]. destruct (client_bundle_ok _ _ _ _ E) as (ws & c & w & _ & _ & (Eb & _) & _). exact Eb. }
    split.
    - intros F id bid t id' bid' t' w b b' R Hk R' Hk' Ch Ch' Eb Eb' Em.
      assert (M : mhas bid m = true) by (apply Hd; eauto). assert (M' : mhas bid' m = true) by (apply Hd; eauto).
      apply mhas_true in M as (cb & M), M' as (cb' & M'). destruct (Bn _ _ M) as [B1 B2], (Bn _ _ M') as [B1' B2'].
      rewrite Eb in B2. apply Some_inj in B2. rewrite Eb' in B2'. apply Some_inj in B2'. subst b b'.
      assert (cb = cb').
      { apply (F cb cb' w); [apply In_mvals; [apply W1|eauto]|apply In_mvals; [apply W1|eauto]| | |exact Em].
        - apply (goes_chosen H K s bid); assumption.
        - apply (goes_chosen H K s bid'); assumption. }
      subst cb'. rewrite <- (made_id H K s bid cb Sd B1), (made_id H K s bid' cb Sd B1'). reflexivity.
    - intros F cb cb' w I I' G G' Em. apply In_mvals in I; [|apply W1]. apply In_mvals in I'; [|apply W1].
      destruct I as (bid & M), I' as (bid' & M'). destruct (Bn _ _ M) as [B1 B2], (Bn _ _ M') as [B1' B2'].
      assert (Mh : mhas bid m = true) by (apply mhas_true; eauto). assert (Mh' : mhas bid' m = true) by (apply mhas_true; eauto).
      apply Hd in Mh as (id & t & R & Hk), Mh' as (id' & t' & R' & Hk').
      apply (goes_chosen H K s bid _ _ Sd B1) in G. apply (goes_chosen H K s bid' _ _ Sd B1') in G'.
      assert (bid = bid') by (apply (F id bid t id' bid' t' w (cb_bundle cb) (cb_bundle cb')); assumption). congruence. }
  assert (Gc : forall m, entries_ok K s m -> (forall bid, mhas bid m = true <-> exists id t, found_history s cid outputs secret id /\ known_in s id bid t) ->
    forall w, (exists cb, In cb (mvals m) /\ goes_to K s cb w) <-> exists id bid t, found_history s cid outputs secret id /\ known_in s id bid t /\ chosen s bid w).
  { intros m W1 Hd w. split.
    - intros (cb & I & G). apply In_mvals in I; [|apply W1]. destruct I as (bid & M). pose proof (proj2 W1 _ _ M) as B1.
      assert (Mh : mhas bid m = true) by (apply mhas_true; eauto). apply Hd in Mh as (id & t & R & Hk). exists id, bid, t.
      split; [exact R|]. split; [exact Hk|]. apply (goes_chosen H K s bid _ _ Sd B1), G.
    - intros (id & bid & t & R & Hk & Ch). assert (M : mhas bid m = true) by (apply Hd; eauto). apply mhas_true in M as (cb & M).
      exists cb. split; [apply In_mvals; [apply W1|eauto]|]. apply (goes_chosen H K s bid); [exact Sd|apply W1, M|exact Ch]. }
  assert (At : forall n (P Q : WitnessId -> Prop), (forall w, P w <-> Q w) -> at_most n P -> at_most n Q).
  { intros n P Q Hpq A l Nd Hl. apply A; [exact Nd|]. intros x Hx. apply Hpq, Hl, Hx. }
  assert (Tm : forall outs co, start_outs s cid outputs secret = Ok outs -> collected H K s cid secret outs co ->
    (at_most U16MAX (fun bid => exists x oo t ty no, secret = Some x /\ found s cid outputs secret oo /\ oo_op oo <> cid /\
       known_in s (oo_op oo) bid t /\ assigned_to H t ty no x) <-> len (cl_terminals co) <= U16MAX)).
  { intros outs co Eo C. pose proof (start_outs_exact _ _ _ _ _ _ Sd Eo) as Hx.
    apply at_most_map; [apply (cd_tsorted _ _ _ _ _ _ _ C)|]. intros bid. rewrite mhas_true. split.
    - intros (x & E). apply (cd_terms _ _ _ _ _ _ _ C) in E. destruct E as (oo & t & Hin & Hn & Hk & Hh).
      apply hits_spec in Hh as (Es & ty & no & As). exists x, oo, t, ty, no. split; [exact Es|]. split; [apply Hx, Hin|auto].
    - intros (x & oo & t & ty & no & Es & R & Hn & Hk & As). exists x. apply (cd_terms _ _ _ _ _ _ _ C). exists oo, t.
      split; [apply Hx, R|]. split; [exact Hn|]. split; [exact Hk|]. apply hits_spec. eauto. }
  split.
  - intros (fuel & c & E). revert E. unfold consign.
    destruct (collect H K s cid outputs secret) as [co|e|] eqn:Ec; try discriminate.
    destruct (collect_ok _ _ _ _ _ _ _ Sd Ec) as (outs & Eo & C).
    destruct (walk H K s cid fuel (start_ids (cl_transitions co)) (cl_bundles co)) as [[m|e|]|] eqn:Ew; try discriminate.
    intros E. injection E as E. destruct (gathered outs co m fuel Sd Eo C Ew) as [W1 Hd].
    destruct (proj1 (assemble_iff transfer (cl_terminals co) m Sd W1) (ex_intro _ c E)) as (Df & Fi & Bf & Tf).
    destruct (proj1 (collect_iff H K s cid secret outputs Sd) (ex_intro _ co Ec)) as (_ & Ck & Cc & Cu).
    destruct (proj1 (start_iff H s cid outputs secret Sd) (ex_intro _ outs Eo)) as [S1 S2].
    pose proof (walk_ok H K s cid fuel Sd _ _ _ (cd_entries _ _ _ _ _ _ _ C) Ew) as (_ & _ & W3).
    constructor; auto.
    + intros id R. apply (history_split H K s cid outputs secret outs co) in R; auto. destruct R as [(oo & Hin & <- & Hn)|R]; [|apply W3, R].
      apply (cd_known _ _ _ _ _ _ _ C); assumption.
    + intros id bid t R Hk. apply Cb. assert (M : mhas bid m = true) by (apply Hd; eauto). apply mhas_true in M as (cb & M).
      exists cb. apply W1, M.
    + intros id t i bid t' b R Hk Hi Hn Hk' Eb.
      refine (walk_listed H K s cid fuel Sd _ _ _ (cd_entries _ _ _ _ _ _ _ C) Ew (oo_op i) bid t' b _ Hk' Eb).
      apply (visited outs co); auto. split; [exact Hn|]. exists id, t, i. auto.
    + apply (Ft m W1 Hd), Fi.
    + apply (At _ _ _ (Gc m W1 Hd)), Bf.
    + apply (Tm outs co Eo C), Tf.
  - intros X. destruct (proj2 (start_iff H s cid outputs secret Sd)) as (outs & Eo); [split; apply X|].
    destruct (proj2 (collect_iff H K s cid secret outputs Sd)) as (co & Ec).
    { split; [eauto|]. split; [|split].
      - intros oo R Hn. apply (xp_known _ _ _ _ _ _ X), Hst; assumption.
      - intros oo bid t R Hn Hk. apply Cb. apply (xp_bundle _ _ _ _ _ _ X (oo_op oo) bid t); [apply Hst; assumption|exact Hk].
      - apply (xp_terminal _ _ _ _ _ _ X). }
    destruct (collect_ok _ _ _ _ _ _ _ Sd Ec) as (outs' & Eo' & C). rewrite Eo in Eo'. apply Ok_inj in Eo'. subst outs'.
    destruct (walk_ends H K s cid Ha (start_ids (cl_transitions co)) (cl_bundles co)) as (fuel & r & Ew).
    specialize (Ew O). rewrite Nat.add_0_r in Ew.
    destruct (walk_made H K s cid fuel Sd (start_ids (cl_transitions co)) (cl_bundles co) r (cd_entries _ _ _ _ _ _ _ C)) as (m & ->).
    { intros id R. apply (visited outs co) in R; auto. destruct R as (Hn & id' & t & i & R & Hk & Hi & <-).
      assert (R' : found_history s cid outputs secret (oo_op i)) by (eapply reached_parent; eassumption).
      destruct (xp_known _ _ _ _ _ _ X _ R') as (t' & bid & Hk'). pose proof Hk' as (_ & b & Eb & _).
      exists bid, t', b. split; [exact Hk'|]. split; [apply Cb; eapply (xp_bundle _ _ _ _ _ _ X); eassumption|].
      split; [exact Eb|]. exact (xp_listed _ _ _ _ _ _ X id' t i bid t' b R Hk Hi Hn Hk' Eb). }
    { exact Ew. }
    destruct (gathered outs co m fuel Sd Eo C Ew) as [W1 Hd].
    destruct (proj2 (assemble_iff transfer (cl_terminals co) m Sd W1)) as (c & E).
    { split; [apply X|]. split; [apply (Ft m W1 Hd), X|]. split; [|apply (Tm outs co Eo C), X].
      apply (At _ _ _ (fun w => iff_sym (Gc m W1 Hd w))), X. }
    exists fuel, c. unfold consign. rewrite Ec, Ew, E. reflexivity.
Qed.
End Whole.
