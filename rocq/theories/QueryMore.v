(** * Proofs about infos, accepted contracts and builders *)
From Verif Require Import Base StM Core SupplModel ContainerModel PIndexModel PIndexSpec StateModel StateSpec StateProofs StashModel StashSpec StashProofs StashProps StockModel StockSpec StockProofs StockAgain
  ConsignModel ConsignProofs ConsignAccept IfaceModel BuilderModel BuilderComplete ComposeModel MergeProofs QueryModel QuerySpec QueryProofs.
Local Open Scope N_scope.

(** ** Infos *)

Lemma date_moment h t m : date h t = m <-> moment h t m.
Proof.
  unfold date, moment. destruct (hd_is_date h t).
  - split; [intros <-; auto|intros [[_ E]|[E _]]; [auto|discriminate]].
  - split; [intros <-; auto|intros [[E _]|[_ E]]; [discriminate|auto]].
Qed.

Section Names.
Context (H : Hashes) (s : MemStash) (F : filed H s) (So : stash_sorted s).
Lemma names_get id : mget id (fold_left (fun m i => minsert (if_id i) (if_name i) m) (stash_ifaces s) []) = option_map if_name (mget id (st_ifaces s)).
Proof.
  unfold stash_ifaces.
  assert (X : forall (l : omap N IfaceRec) m, msorted l -> (forall k i, In (k, i) l -> if_id i = k) ->
    mget id (fold_left (fun m i => minsert (if_id i) (if_name i) m) (mvals l) m) = match mget id l with Some i => Some (if_name i) | None => mget id m end).
  { induction l as [|[k i] l IH]; intros m S Hk; [reflexivity|]. pose proof (msorted_inv _ _ S) as [S1 S2].
    cbn [mvals map snd fold_left]. fold (mvals l). rewrite IH; [|exact S1|intros k' i' Hin; apply Hk; right; exact Hin].
    rewrite (Hk k i (or_introl eq_refl)). rewrite mget_insert. cbn [mget]. destruct (keqb_spec id k) as [Ek|Nk]; [|reflexivity].
    subst id. destruct (mget k l) as [x|] eqn:E; [|reflexivity]. exfalso. apply mget_In in E. rewrite Forall_forall in S2. specialize (S2 _ E). unfold key_lt in S2. cbn [fst] in S2. apply N_lt in S2. exact (N.lt_irrefl _ S2). }
  rewrite X; [destruct (mget id (st_ifaces s)); reflexivity|apply So|]. intros k i Hin. apply (fi_iface _ _ F), In_mget; [apply So|exact Hin].
Qed.

Lemma shown_iff names id r : (forall id, mget id names = option_map if_name (mget id (st_ifaces s))) ->
  match mget id names with Some n => RefName n | None => RefId id end = r <-> shown s id r.
Proof.
  intros Hn. rewrite Hn. unfold shown, iface_by_id. destruct (mget id (st_ifaces s)) as [i|]; cbn.
  - split; [intros <-; exists i; auto|]. destruct r as [n|id'].
    + intros (j & Ej & <-). apply Ok_inj in Ej as ->. reflexivity.
    + intros [_ Nx]. destruct (Nx i eq_refl).
  - split; [intros <-; split; [reflexivity|discriminate]|]. destruct r as [n|id']; [intros (j & Ej & _); discriminate Ej|intros [-> _]; reflexivity].
Qed.
Lemma map_forall2 {A B} (f : A -> B) (R : A -> B -> Prop) l l' : (forall a b, In a l -> f a = b <-> R a b) -> map f l = l' <-> Forall2 R l l'.
Proof.
  revert l'. induction l as [|a l IH]; intros l' Hf.
  - cbn. split; [intros <-; constructor|intros X; inversion X; reflexivity].
  - cbn. split.
    + intros <-. constructor; [apply Hf; [left; reflexivity|reflexivity]|]. apply IH; [intros x b Hx; apply Hf; right; exact Hx|reflexivity].
    + intros X. inversion X; subst. f_equal; [apply Hf; [left; reflexivity|assumption]|]. apply IH; [intros x b Hx; apply Hf; right; exact Hx|assumption].
Qed.

Lemma info_listed D h i x : iface_info D h i (fold_left (fun m i => minsert (if_id i) (if_name i) m) (stash_ifaces s) []) (stash_supplement s (TagIface, if_id i)) = x <-> listed D h s i x.
Proof.
  set (names := fold_left _ _ _). assert (Hn : forall id, mget id names = option_map if_name (mget id (st_ifaces s))) by (apply names_get).
  assert (Hi : forall l, map (fun id => match mget id names with Some n => RefName n | None => RefId id end) (if_inherits i) = l <-> Forall2 (shown s) (if_inherits i) l).
  { intros l. apply map_forall2. intros a b _. apply shown_iff, Hn. }
  assert (Hsup : stash_supplement s (TagIface, if_id i) = match stash_supplements s (TagIface, if_id i) with [] => None | a :: _ => Some a end).
  { unfold stash_supplement, stash_supplements. destruct (mget _ _) as [[|a l]|]; reflexivity. }
  rewrite Hsup. unfold iface_info. destruct (stash_supplements s (TagIface, if_id i)) as [|su rest] eqn:Esu; unfold iface_info_with; split.
  - intros <-. constructor; cbn; try reflexivity; [apply date_moment; reflexivity|apply Hi; reflexivity|split; reflexivity|]. intros su rest E. congruence.
  - intros [E1 E2 E3 E4 E5 E6 E7 E8 E9]. destruct (E8 Esu) as [E10 E11]. apply date_moment in E5. apply Hi in E6. destruct x; cbn in *. congruence.
  - intros <-. constructor; cbn; try reflexivity; [apply date_moment; reflexivity|apply Hi; reflexivity|intros E; congruence|].
    intros su' rest' E. rewrite Esu in E. injection E as <- <-. split; [reflexivity|]. split; [intros l ->; reflexivity|intros ->; reflexivity].
  - intros [E1 E2 E3 E4 E5 E6 E7 E8 E9]. destruct (E9 _ _ Esu) as (E10 & E11 & E12). apply date_moment in E5. apply Hi in E6. destruct x; cbn in *. subst. f_equal.
    destruct (suppl_get_default_opt (hd_features h) _ _ _) as [l|]; [symmetry; apply E11; reflexivity|symmetry; apply E12; reflexivity].
Qed.
Lemma schema_info_listed h si x : schema_info h si = x <-> schema_listed h si x.
Proof.
  unfold schema_info.
  assert (Hi : forall l, map (fun p => impl_info h (fst p) (snd p)) (si_impls si) = l <->
    Forall2 (fun p y => mi_name y = fst p /\ mi_id y = im_id (snd p) /\ mi_iface y = im_iface (snd p) /\
                        mi_developer y = fst (hd_impl h (snd p)) /\ moment h (snd (hd_impl h (snd p))) (mi_created y)) (si_impls si) l).
  { intros l. apply map_forall2. intros [n im] y _. cbn [fst snd]. unfold impl_info. split.
    - intros <-. cbn. rewrite <- date_moment. auto 6.
    - intros (E1 & E2 & E3 & E4 & E5). apply date_moment in E5. destruct y; cbn in *. congruence. }
  split.
  - intros <-. constructor; cbn; try reflexivity; [apply date_moment; reflexivity|apply Hi; reflexivity].
  - intros [E1 E2 E3 E4 E5]. apply date_moment in E4. apply Hi in E5. destruct x; cbn in *. congruence.
Qed.
End Names.

(** ** Accepted contracts *)

Lemma genesis_kept H id s s' : upd anything H s s' -> mget id (st_geneses s) <> None -> mget id (st_geneses s') <> None.
Proof.
  intros U E. destruct U; simpl; try assumption.
  - rewrite mget_insert. destruct (keqb id (contract_id H g)); [discriminate|exact E].
  - rewrite mget_insert. destruct (keqb id (contract_id H g')); [discriminate|exact E].
Qed.
Lemma geneses_kept H K l s id : mget id (st_geneses s) <> None -> mget id (st_geneses (stash_after H K s l)) <> None.
Proof.
  apply (calls_keep anything H K (fun t => mget id (st_geneses t) <> None)).
  - intros a b. apply genesis_kept.
  - intros a i b Ha. exact Ha.
  - intros. apply unguarded.
Qed.

Lemma consumed_genesis H K c s s1 : consume_consignment H K c s = (s1, Ok tt) ->
  mget (contract_id H (c_genesis c)) (st_geneses s1) <> None /\ exists si, stash_schema s1 (sch_id (c_schema c)) = Ok si.
Proof.
  unfold consume_consignment. cbv zeta. unfold bind at 1. destruct (consume_genesis H (c_genesis c) s) as [sa [ua|e|]] eqn:Ea; try discriminate.
  assert (Ga : mget (contract_id H (c_genesis c)) (st_geneses sa) <> None).
  { unfold consume_genesis, replace_genesis, bind, get, grown, lift, put, ret in Ea.
    destruct (mget (contract_id H (c_genesis c)) (st_geneses s)) as [old|] eqn:Es.
    - destruct (merge_op H old (c_genesis c)) as [g'|e|] eqn:Em; simpl in Ea; try discriminate Ea.
      destruct (cinsert _ _ _ _) as [m|] eqn:Ec; simpl in Ea; [|discriminate Ea]. apply cinsert_inv in Ec as [-> _]. injection Ea as <- _. simpl.
      rewrite mget_insert. destruct (keqb _ _); [discriminate|congruence].
    - destruct (cinsert _ _ _ _) as [m|] eqn:Ec; simpl in Ea; [|discriminate Ea]. apply cinsert_inv in Ec as [-> _]. injection Ea as <- _. simpl.
      rewrite mget_insert, keqb_refl. discriminate. }
  unfold bind at 1. destruct (mfor (consume_extension H) _ sa) as [sb [ub|e|]] eqn:Eb; try discriminate.
  assert (Sb : steps anything H sa sb) by (eapply (by_mfor anything H (consume_extension H)); [|exact Eb]; intros x _; apply by_consume_extension; exact I).
  unfold bind at 1. destruct (mfor (consume_witness_bundle H K _) _ sb) as [sc [uc|e|]] eqn:Ec; try discriminate.
  assert (Sc : steps anything H sb sc) by (eapply (by_mfor anything H (consume_witness_bundle H K _)); [|exact Ec]; intros x _; apply by_consume_witness_bundle; intros; exact I).
  unfold bind at 1. destruct (mfor _ (c_attachments c) sc) as [sd [ud|e|]] eqn:Ed; try discriminate.
  assert (Sd : steps anything H sc sd).
  { eapply (by_mfor anything H (fun p => replace_attachment (fst p) (snd p) ;;! ret tt)); [|exact Ed]. intros. apply by_bind; [apply by_replace_attachment|intros; apply by_ret]. }
  intros E. assert (Se : steps anything H sd s1) by (eapply by_consume_kit, E). split.
  - eapply (steps_keep anything H (fun t => mget (contract_id H (c_genesis c)) (st_geneses t) <> None)); [intros a b; apply genesis_kept| |exact Ga].
    eapply steps_trans; [exact Sb|]. eapply steps_trans; [exact Sc|]. eapply steps_trans; [exact Sd|exact Se].
  - destruct (kit_success _ _ _ E) as [I _]. pose proof (ki_schema _ _ _ I (sch_id (c_schema c))) as Ks. unfold stash_schema.
    destruct (mget (sch_id (c_schema c)) (st_schemata s1)) as [si|]; [exists si; reflexivity|]. cbn [option_map] in Ks. exfalso.
    destruct (mget (sch_id (c_schema c)) (st_schemata sd)); [discriminate Ks|]. cbn in Ks. rewrite N.eqb_refl in Ks. discriminate Ks.
Qed.

Section Accepted.
Context {OG : OrdKey GlobalOut}.
Lemma registered H c r s s1 : update_from_consignment H c r s = (s1, Ok tt) -> exists cs, mget (contract_id H (c_genesis c)) (ms_contracts s1) = Some cs.
Proof.
  intros E.
  set (P := fun a : MemState => mget (contract_id H (c_genesis c)) (ms_contracts a) <> None).
  set (kp := fun (m : SM unit) => forall a, P a -> P (fst (m a))).
  assert (Kb : forall (m : SM unit) k, kp m -> (forall u, kp (k u)) -> kp (bind m k)).
  { intros m k Hm Hk a Pa. unfold bind. specialize (Hm a Pa). destruct (m a) as [a' [u|e|]]; [apply Hk, Hm|exact Hm ..]. }
  assert (Kf : forall A (f : A -> SM unit) l, (forall a, kp (f a)) -> kp (mfor f l)).
  { intros A f l Hf. induction l as [|x l IH]; [intros a Pa; exact Pa|]. apply Kb; [apply Hf|intros _; exact IH]. }
  assert (Ko : forall cid ow o, kp (on_contract cid (fun cs => add_operation H cs ow o))).
  { intros cid ow o a Pa. unfold on_contract. destruct (mget cid (ms_contracts a)); [|exact Pa]. destruct (add_operation H c0 ow o); [|exact Pa ..].
    unfold P in *. cbn. rewrite mget_insert. destruct (keqb _ _); [discriminate|exact Pa]. }
  assert (Kw : forall w ord, kp (set_witness w ord)) by (intros w ord a Pa; unfold set_witness; destruct (cinsert _ _ _ _); exact Pa).
  assert (Kl : forall A (x : result StateError A) (k : A -> SM unit), (forall u, kp (k u)) -> kp (bind (lift x) k)).
  { intros A x k Hk a Pa. unfold bind, lift. destruct x; [apply Hk, Pa|exact Pa ..]. }
  unfold update_from_consignment in E.
  assert (G : P s1); [|unfold P in G; destruct (mget _ _) as [cs|]; [exists cs; reflexivity|congruence]].
  unfold bind at 1 in E. destruct (st_register H (c_schema c) (c_genesis c) s) as [s0 [u|e|]] eqn:Er; try discriminate.
  assert (P0 : P s0).
  { unfold st_register, get in Er. unfold bind at 1 in Er. cbv beta iota in Er. unfold add_genesis in Er.
    unfold bind in Er. match type of Er with (match ?m with _ => _ end = _) => destruct m as [sm [um|e|]] eqn:Em end; try discriminate.
    unfold on_contract in Er. unfold P. destruct (mget (contract_id H (c_genesis c)) (ms_contracts sm)) as [cs|] eqn:Ecs; [|discriminate].
    destruct (add_operation H cs OWGenesis (c_genesis c)); try discriminate. injection Er as <- _. cbn. rewrite mget_insert, keqb_refl. discriminate. }
  replace s1 with (fst (s1, Ok tt : result StateError unit)) by reflexivity. rewrite <- E. apply Kb; [| |exact P0].
  - apply Kf. intros wb. apply Kf. intros t. apply Kl. intros ord. apply Kb; [apply Kw|intros _; apply Ko].
  - intros _. apply Kf. intros e. destruct (extension_witness c (op_id H e)); [|intros a Pa; exact Pa]. apply Kl. intros ord. apply Kb; [apply Kw|intros _; apply Ko].
Qed.

Lemma accepted_found H K before c r after : collision_free H -> schemas_fit (before ++ SkAccept c r :: after) ->
  snd (stock_body H K (SkAccept c r) (stock_after H K sk_empty before)) = Ok tt ->
  let s := stock_after H K sk_empty (before ++ SkAccept c r :: after) in
  exists g st si, stash_genesis (sk_stash s) (contract_id H (c_genesis c)) = Ok g /\ contract_state (sk_state s) (contract_id H (c_genesis c)) = Ok st /\
    cs_schema (mc_state st) = sch_id (c_schema c) /\ stash_schema (sk_stash s) (sch_id (c_schema c)) = Ok si.
Proof.
  intros CF Fit Ok0 s. set (s0 := stock_after H K sk_empty before) in *.
  destruct (stock_body H K (SkAccept c r) s0) as [s1 x] eqn:E1. cbn [snd] in Ok0. subst x.
  assert (Es : s = stock_after H K s1 after).
  { unfold s, stock_after. rewrite fold_left_app. cbn [fold_left]. fold s0. change (fold_left _ before sk_empty) with s0. rewrite E1. reflexivity. }
  change (accept_body H K c r s0 = (s1, Ok tt)) in E1. destruct (accept_ok _ _ _ _ _ _ E1) as (c' & Er & Est & _ & Esh).
  destruct (resolve_alike _ _ _ _ Er) as [Ec' _].
  assert (Eg : c_genesis c' = c_genesis c) by (rewrite Ec'; reflexivity). assert (Esc : c_schema c' = c_schema c) by (rewrite Ec'; reflexivity).
  destruct (consumed_genesis _ _ _ _ _ Esh) as [G1 (si1 & S1)]. rewrite Eg in G1. rewrite Esc in S1.
  destruct (registered _ _ _ _ _ Est) as (cs1 & C1). rewrite Eg in C1.
  destruct (after_moved H K after s1) as (_ & (ls & Is & _) & (lh & Ih & _)). rewrite <- Es in Is, Ih.
  assert (G2 : mget (contract_id H (c_genesis c)) (st_geneses (sk_stash s)) <> None) by (rewrite Ih; apply geneses_kept, G1).
  destruct (mget (contract_id H (c_genesis c)) (st_geneses (sk_stash s))) as [g|] eqn:Gg; [|congruence].
  apply by_genesis in Gg. destruct (proj1 (C48_definitions_kept H K lh (sk_stash s1) (sch_id (c_schema c))) si1 S1) as (si & S2 & _). rewrite <- Ih in S2.
  assert (C2 : exists st, contract_state (sk_state s) (contract_id H (c_genesis c)) = Ok st).
  { apply contract_state_ok. rewrite Is.
    assert (V : swf (sk_state s1)).
    { destruct (after_moved H K (before ++ [SkAccept c r]) sk_empty) as (_ & (ms & Js & _) & _).
      assert (Ej : stock_after H K sk_empty (before ++ [SkAccept c r]) = s1).
      { unfold stock_after. rewrite fold_left_app. cbn [fold_left]. change (fold_left _ before sk_empty) with s0. cbn [stock_body]. rewrite E1. reflexivity. }
      rewrite Ej in Js. rewrite Js. apply (safter_wf H ms). }
    destruct (scalls_adds H ls (sk_state s1) V) as (_ & _ & Kp & _). apply (Kp (SFContract _) eq_refl). cbn. exists cs1. exact C1. }
  destruct C2 as [st C2]. exists g, st, si. split; [exact Gg|]. split; [exact C2|]. split; [|exact S2].
  rewrite (state_schema H K _ _ _ _ CF Fit C2 Gg). rewrite (Fit c r) by (apply in_or_app; right; left; reflexivity).
  apply same_schema with (H := H); [exact CF|]. destruct (stock_filed H K (before ++ SkAccept c r :: after)) as [F _].
  apply by_genesis in Gg. exact (fi_genesis _ _ F _ _ Gg).
Qed.
End Accepted.

(** ** Builders *)

Lemma made D sc i im types : made_for D (build_ctx D sc i im types) sc i im types.
Proof. constructor; reflexivity. Qed.
Lemma made_same D X sc i im types : made_for D X sc i im types -> X = build_ctx D sc i im types.
Proof. intros [E1 E2 E3 E4 E5]. destruct X. cbn in *. subst. reflexivity. Qed.

Lemma called_iff X name ty : called X name ty <-> type_of (fm_transitions (bc_impl X)) name = Some ty.
Proof.
  unfold called, type_of. generalize (fm_transitions (bc_impl X)) as l. induction l as [|[t n] l IH]; cbn [find snd].
  - split; [intros (b & a & E & _); destruct b; discriminate E|discriminate].
  - destruct (N.eqb_spec n name) as [->|Ne].
    + cbn. split.
      * intros (b & a & E & Nb). destruct b as [|p b]; [injection E as <- _; reflexivity|]. injection E as <- _. destruct (Nb t). left. reflexivity.
      * intros E. injection E as <-. exists [], l. split; [reflexivity|intros t' []].
    + rewrite <- IH. split.
      * intros (b & a & E & Nb). destruct b as [|p b]; [injection E as _ E' _; congruence|]. injection E as <- E. exists b, a. split; [exact E|]. intros t' Ht. apply (Nb t'). right. exact Ht.
      * intros (b & a & E & Nb). exists ((t, n) :: b), a. split; [cbn; congruence|]. intros t' [Et|Ht]; [injection Et as _ E2; congruence|exact (Nb t' Ht)].
Qed.

Definition asked_builder (X : BuildCtx) (cid : N) (name : option N) : result BuilderError TrBuilder :=
  match name with Some n => named_transition X cid n | None => default_transition X cid end.
Lemma asked_ok X cid name b : asked_builder X cid name = Ok b <-> exists ty, asked X name ty /\ b = tb_new cid ty.
Proof.
  unfold asked_builder, asked, named_transition, default_transition. destruct name as [n|].
  - destruct (type_of (fm_transitions (bc_impl X)) n) as [ty|] eqn:E; cbn.
    + split; [intros Eb; apply Ok_inj in Eb as <-; exists ty; split; [apply called_iff, E|reflexivity]|]. intros (t & C & ->). apply called_iff in C. rewrite E in C. injection C as ->. reflexivity.
    + split; [discriminate|]. intros (t & C & _). apply called_iff in C. congruence.
  - destruct (ff_default (bc_iface X)) as [n|]; cbn.
    + destruct (type_of (fm_transitions (bc_impl X)) n) as [ty|] eqn:E; cbn.
      * split; [intros Eb; apply Ok_inj in Eb as <-; exists ty; split; [exists n; split; [reflexivity|apply called_iff, E]|reflexivity]|].
        intros (t & (n' & En & C) & ->). injection En as <-. apply called_iff in C. rewrite E in C. injection C as ->. reflexivity.
      * split; [discriminate|]. intros (t & (n' & En & C) & _). injection En as <-. apply called_iff in C. congruence.
    + split; [discriminate|]. intros (t & (n' & En & _) & _). discriminate En.
Qed.

Lemma fresh_made D X cid ty g b : tags_ok D -> genesis_tags X (tb_new cid ty) (df_tags D g) = Ok b <-> fresh_builder D cid ty g b.
Proof.
  intros T. destruct (T g) as [S L]. destruct (tags_added X cid ty (df_tags D g) S L) as (b0 & -> & E1 & E2 & E3 & E4 & E5). split.
  - intros E. apply Ok_inj in E as <-. constructor; assumption.
  - intros [F1 F2 F3 F4 F5]. f_equal. destruct b0 as [c0 [g0 m0 r0 f0 d0 a0 t0] n0 ty0 i0], b as [c1 [g1 m1 r1 f1 d1 a1 t1] n1 ty1 i1]. unfold only_tags in *. cbn in *.
    destruct E5 as (? & ? & ? & ? & ? & ? & ?), F5 as (? & ? & ? & ? & ? & ? & ?). subst. reflexivity.
Qed.
Lemma fresh_total D X cid ty g : tags_ok D -> exists b, genesis_tags X (tb_new cid ty) (df_tags D g) = Ok b.
Proof. intros T. destruct (T g) as [S L]. destruct (tags_added X cid ty (df_tags D g) S L) as (b0 & E & _). exists b0. exact E. Qed.
